(** Proofs about the address book: the manager. *)
From Coq Require Import List NArith PeanoNat Bool Lia Permutation.
From Verif Require Import ListUtil Bytes BookModel BookSpec BookProofs BookProofs2.
Import ListNotations.
Open Scope N_scope.

Lemma somes_app a b : somes (a ++ b) = somes a ++ somes b.
Proof. apply flat_map_app. Qed.
Lemma somes_none n : somes (repeat None n) = [].
Proof. induction n; [reflexivity|exact IHn]. Qed.
Lemma repeat_last {A} (x : A) n : repeat x n ++ [x] = repeat x (S n).
Proof. symmetry. apply (repeat_cons n x). Qed.

Section Manager.
Variable ws : N -> bool.
Variable ord : list (list N * list N) -> list (list N * list N).
Variable num : nat.
Notation brun := (brun ws ord num).
Notation bstep := (bstep ws ord num).

(** Where the manager is after these results. *)
Definition at_ask (used : list (option (list N))) (a : asking) : Prop :=
  match a with
  | Main => exists m, used = repeat None m
  | Sub i n => exists m h blocks, used = repeat None m ++ [Some h] ++ concat blocks ++ repeat None n
      /\ length blocks = i /\ Forall tried blocks /\ (i < num)%nat /\ (n < 5)%nat
  | Done => asked_all num used
  end.

Lemma at_next used i m h blocks : used = repeat None m ++ [Some h] ++ concat blocks -> length blocks = i -> (i <= num)%nat ->
  Forall tried blocks -> at_ask used (next_sub num i).
Proof.
  intros E L I F. unfold next_sub. destruct (Nat.ltb i num) eqn:B.
  - apply Nat.ltb_lt in B. cbn. exists m, h, blocks. rewrite app_nil_r. repeat split; auto. lia.
  - apply Nat.ltb_ge in B. cbn. exists m, h, blocks. repeat split; auto. lia.
Qed.

Definition minv (old : option (list N)) (used : list (option (list N))) (b : book) : Prop :=
  b_map b = merged ws (somes used) /\ at_ask used (b_ask b).

Lemma minv_step old used b a : minv old used b -> b_ask b <> Done -> minv old (used ++ [a_got a]) (bstep b a).
Proof.
  intros [M A] D. unfold BookModel.bstep. destruct (b_ask b) as [|i n|] eqn:K; [| |congruence].
  - destruct A as [m ->]. destruct (a_got a) as [hs|] eqn:G.
    + split; cbn [b_map b_ask].
      * rewrite M, somes_app. cbn [somes flat_map app]. rewrite merged_app. reflexivity.
      * apply (at_next _ 0 m hs []); [reflexivity|reflexivity|lia|constructor].
    + split.
      * rewrite M, somes_app. cbn. rewrite app_nil_r. reflexivity.
      * rewrite K. exists (S m). apply repeat_last.
  - destruct A as (m & h & blocks & -> & L & F & I & N5). destruct (a_got a) as [hs|] eqn:G.
    + split; cbn [b_map b_ask].
      * rewrite M, (somes_app _ [Some hs]). cbn [somes flat_map app]. rewrite merged_app. reflexivity.
      * apply (at_next _ (S i) m h (blocks ++ [repeat None n ++ [Some hs]])).
        -- rewrite concat_app. cbn. rewrite !app_nil_r, <- !app_assoc. cbn. rewrite <- app_assoc. reflexivity.
        -- rewrite app_length. cbn. lia.
        -- lia.
        -- apply Forall_app. split; [exact F|]. constructor; [|constructor]. right. exists n, hs. auto.
    + split; cbn [b_map b_ask].
      * rewrite M, (somes_app _ [None]). cbn [somes flat_map app]. rewrite app_nil_r. reflexivity.
      * unfold NUM_RETRIES. destruct (Nat.ltb (S n) 5) eqn:B.
        -- apply Nat.ltb_lt in B. exists m, h, blocks. split; [|auto]. rewrite <- !app_assoc. rewrite repeat_last. reflexivity.
        -- apply Nat.ltb_ge in B. assert (n = 4%nat) by lia. subst n.
           apply (at_next _ (S i) m h (blocks ++ [repeat None 5])).
           ++ rewrite concat_app. cbn. rewrite <- !app_assoc. cbn. rewrite <- app_assoc. reflexivity.
           ++ rewrite app_length. cbn. lia.
           ++ lia.
           ++ apply Forall_app. split; [exact F|]. constructor; [left; reflexivity|constructor].
Qed.

(** The whole run: the results used, and those that no request was made for. *)
Lemma run_inv old atts : exists used extra, map a_got atts = used ++ extra /\ (extra = [] \/ b_ask (brun (start old) atts) = Done)
  /\ minv old used (brun (start old) atts).
Proof.
  induction atts as [|a atts (used & extra & E & X & M)] using rev_ind.
  - exists [], []. repeat split; auto. exists 0%nat. reflexivity.
  - unfold BookModel.brun in *. rewrite map_app, fold_left_app. cbn [map fold_left]. set (b := fold_left bstep atts (start old)) in *.
    destruct (b_ask b) eqn:K.
    + destruct X as [->|X]; [|discriminate]. rewrite app_nil_r in E. exists (used ++ [a_got a]), []. rewrite E, app_nil_r.
      split; [reflexivity|]. split; [auto|]. apply minv_step; [exact M|congruence].
    + destruct X as [->|X]; [|discriminate]. rewrite app_nil_r in E. exists (used ++ [a_got a]), []. rewrite E, app_nil_r.
      split; [reflexivity|]. split; [auto|]. apply minv_step; [exact M|congruence].
    + exists used, (extra ++ [a_got a]). rewrite E, app_assoc. split; [reflexivity|].
      assert (Same : bstep b a = b) by (unfold BookModel.bstep; rewrite K; reflexivity). rewrite Same. auto.
Qed.

(** Asking is over exactly when all results are there. *)
Lemma tried_nonnil bl : tried bl -> bl <> [].
Proof. intros [->|(n & h & _ & ->)]; [discriminate|]. destruct n; discriminate. Qed.

Lemma none_some_eq (m m' : nat) (h h' : list N) x y :
  repeat None m ++ Some h :: x = repeat None m' ++ Some h' :: y -> m = m' /\ h = h' /\ x = y.
Proof.
  revert m'. induction m as [|m IH]; intros [|m'] E; cbn in E; try discriminate.
  - injection E as -> ->. auto.
  - injection E as E. destruct (IH m' E) as (-> & -> & ->). auto.
Qed.

Lemma tried_prefix b1 b2 x y : tried b1 -> tried b2 -> b1 ++ x = b2 ++ y -> b1 = b2 /\ x = y.
Proof.
  assert (NS : forall n h q z, (n < 5)%nat -> repeat None 5 ++ q = repeat (@None (list N)) n ++ Some h :: z -> False).
  { intros n h q z L E. do 5 (destruct n as [|n]; [discriminate E|cbn in E; injection E as E]). lia. }
  intros [->|(n & h & L & ->)] [->|(n' & h' & L' & ->)] E.
  - split; [reflexivity|]. apply app_inv_head in E. exact E.
  - rewrite <- app_assoc in E. exfalso. apply (NS n' h' x y L' E).
  - rewrite <- app_assoc in E. exfalso. symmetry in E. apply (NS n h y x L E).
  - rewrite <- !app_assoc in E. cbn [app] in E. apply none_some_eq in E as (-> & -> & ->). auto.
Qed.

Lemma blocks_short : forall bs bs' t, Forall tried bs -> Forall tried bs' -> (length bs < length bs')%nat ->
  forall n, (n < 5)%nat -> t = repeat (@None (list N)) n -> concat bs ++ t = concat bs' -> False.
Proof.
  induction bs as [|b bs IH]; intros [|b' bs'] t F F' L n N5 T E; cbn in L; try lia.
  - cbn in E. inversion F'; subst. destruct H1 as [->|(k & h & K & ->)].
    + apply (f_equal (@length _)) in E. rewrite repeat_length, app_length, repeat_length in E. lia.
    + assert (X : In (Some h) (repeat (@None (list N)) n)) by (rewrite E; apply in_or_app; left; apply in_or_app; right; left; reflexivity).
      apply repeat_spec in X. discriminate.
  - inversion F; inversion F'; subst. cbn in E. rewrite <- app_assoc in E. apply tried_prefix in E as [-> E]; [|assumption|assumption].
    apply (IH bs' _ H2 H6 ltac:(lia) n N5 eq_refl E).
Qed.

Lemma at_done used a : at_ask used a -> (a = Done <-> asked_all num used).
Proof.
  intros A. split; [intros ->; exact A|]. intros (m' & h' & bs' & E & L & F). destruct a as [|i n|]; [| |reflexivity]; exfalso.
  - destruct A as [m ->]. assert (X : In (Some h') (repeat (@None (list N)) m)) by (rewrite E; apply in_or_app; right; left; reflexivity).
    apply repeat_spec in X. discriminate.
  - destruct A as (m & h & bs & -> & L0 & F0 & I & N5). apply none_some_eq in E as (_ & _ & E).
    apply (blocks_short bs bs' (repeat None n) F0 F ltac:(lia) n N5 eq_refl E).
Qed.

(** ** The file *)
Definition written (a : attempt) : Prop := a_created a = true /\ a_cut a = None.

Lemma file_inv old atts : Forall written atts ->
  b_file (brun (start old) atts) = old /\ b_map (brun (start old) atts) = [] /\ b_ask (brun (start old) atts) = Main
  \/ b_file (brun (start old) atts) = Some (serialize (ord (b_map (brun (start old) atts)))) /\ b_ask (brun (start old) atts) <> Main.
Proof.
  intros W. induction atts as [|a atts IH] using rev_ind.
  - left. repeat split.
  - apply Forall_app in W as [W W1]. inversion W1 as [|? ? [Cr Cu] _]; subst. specialize (IH W).
    unfold BookModel.brun in *. rewrite fold_left_app. cbn [fold_left]. set (b := fold_left bstep atts (start old)) in *.
    unfold BookModel.bstep. unfold save. rewrite Cr, Cu.
    destruct (b_ask b) as [|i n|] eqn:K.
    + destruct (a_got a); [right; cbn [b_file b_map b_ask]; split; [reflexivity|unfold next_sub; destruct (Nat.ltb 0 num); discriminate]|].
      rewrite K. exact IH.
    + destruct IH as [(_ & _ & IH)|[IH _]]; [discriminate|]. right. destruct (a_got a); cbn [b_file b_map b_ask].
      * split; [reflexivity|]. unfold next_sub. destruct (Nat.ltb (S i) num); discriminate.
      * split; [exact IH|]. unfold next_sub. destruct (Nat.ltb (S n) NUM_RETRIES); [discriminate|]. destruct (Nat.ltb (S i) num); discriminate.
    + rewrite K. exact IH.
Qed.
End Manager.
