(** The address book: which address a name gets, what crashes and restarts do to it, and how often
    hosts files are asked for. *)
From Coq Require Import Ascii String.
From Coq Require Import List NArith PeanoNat Bool Lia Permutation.
From Verif Require Import ListUtil Bytes SamModel BookModel BookSpec BookProofs BookProofs2 BookProofs3.
Import ListNotations.
Local Open Scope list_scope.
Open Scope N_scope.

(** Of the examples: white space is what ASCII has of it, and the map is iterated backwards. *)
Definition ascii_ws (c : N) : bool := (c =? 32) || ((9 <=? c) && (c <=? 13)).
Definition nl : list N := [10].
Definition got (t : list N) : attempt := mkAttempt (Some t) true None.
Definition failed : attempt := mkAttempt None true None.
Definition hosts1 : list N := lit "a.i2p = AAAA #!sig=1" ++ nl ++ lit "# comment" ++ nl ++ lit "b.i2p=BBBB" ++ [13] ++ nl.
Definition hosts2 : list N := lit "a.i2p=EVIL" ++ nl ++ lit "c.i2p=CC=C".

Definition all_written (l : list attempt) : Prop := Forall (fun a => a_created a = true /\ a_cut a = None) l.

Lemma ord_good ws ord sources : (forall m, Permutation (ord m) m) -> Forall (clean ws) (ord (merged ws sources)).
Proof.
  intros P. destruct (merged_good ws sources) as [_ F]. rewrite Forall_forall in *. intros x X. apply F.
  apply (Permutation_in _ (P _) X).
Qed.
Lemma ord_assoc ws ord sources h : (forall m, Permutation (ord m) m) -> assoc h (ord (merged ws sources)) = assoc h (merged ws sources).
Proof. intros P. destruct (merged_good ws sources) as [G _]. apply assoc_perm; [exact G|apply P]. Qed.

Lemma made_all (sources : list (list N)) lss : Forall2 made_of sources lss <-> lss = map lines sources.
Proof.
  revert lss. induction sources as [|f s IH]; intros lss.
  - split; [intros H; inversion H; reflexivity|intros ->; constructor].
  - split.
    + intros H. inversion H as [|? l ? ls A B]; subst. apply (made_of_iff (fun _ => true)) in A as ->. apply IH in B as ->. reflexivity.
    + intros ->. cbn. constructor; [apply (made_of_iff (fun _ => true)); reflexivity|]. apply IH. reflexivity.
Qed.

(** * C114: a name gets the address of the first listing of it, in the order of the sources *)
(** The hosts files downloaded so far are those of the main source and then of the subscriptions, in
    order.  With all of them saved, a name resolves to an address if and only if that address is
    what the first of all their lines that gives the name an address gives it; a name in none of
    them does not resolve.  Until something is downloaded, the file is left as it was. *)
Theorem C114_first_listed_wins : forall ws ord num old atts b,
  ws 13 = true -> (forall m, Permutation (ord m) m) -> all_written atts ->
  brun ws ord num (start old) atts = b ->
  exists used extra, map a_got atts = used ++ extra
    /\ (extra = [] \/ asked_all num used) /\ (b_ask b = Done <-> asked_all num used)
    /\ (somes used = [] -> b_file b = old)
    /\ (somes used <> [] -> forall h v, resolve ws (b_file b) h = Some v
         <-> exists lss, Forall2 made_of (somes used) lss /\ first_gives ws (concat lss) h v).
Proof.
  intros ws ord num old atts b Wcr P W <-. destruct (run_inv ws ord num old atts) as (used & extra & E & X & M & A).
  pose proof (at_done _ _ _ A) as D. exists used, extra. split; [exact E|].
  split; [destruct X as [X|X]; [left; exact X|right; apply D; exact X]|]. split; [exact D|].
  destruct (file_inv ws ord num old atts W) as [(F & Em & K)|[F K]].
  - split; [intros _; exact F|]. intros N. exfalso. apply N. rewrite K in A. destruct A as [m ->]. apply somes_none.
  - split.
    + intros Z. exfalso. destruct (b_ask (brun ws ord num (start old) atts)) as [|i n|]; [congruence| |].
      * destruct A as (m & h & bs & -> & _). rewrite somes_app in Z. apply app_eq_nil in Z as [_ Z]. discriminate.
      * destruct A as (m & h & bs & -> & _). rewrite somes_app in Z. apply app_eq_nil in Z as [_ Z]. discriminate.
    + intros _ h v. rewrite F, M. rewrite (resolve_serialize ws Wcr) by (apply ord_good; exact P).
      rewrite ord_assoc by exact P. rewrite merged_assoc, first_entry_iff. split.
      * intros G. exists (map lines (somes used)). split; [apply made_all; reflexivity|exact G].
      * intros (lss & L & G). apply made_all in L as ->. exact G.
Qed.
Print Assumptions C114_first_listed_wins.

(** Any book on disk, also one edited by hand: a name gets what the first line that says anything
    about it says, and lines that are no entries are passed over. *)
Theorem C114_any_book : forall ws f h v,
  resolve ws (Some f) h = Some v
  <-> exists a l b, made_of f (a ++ l :: b) /\ says ws l h v /\ (forall x u, In x a -> ~ says ws x h u).
Proof.
  intros ws f h v. unfold resolve.
  assert (G : forall ls, resolve_lines ws ls h = Some v
    <-> exists a l b, ls = a ++ l :: b /\ says ws l h v /\ (forall x u, In x a -> ~ says ws x h u)).
  { induction ls as [|l r IH].
    - cbn [resolve_lines]. split; [discriminate|]. intros (a & l & b & E & _). destruct a; discriminate.
    - cbn [resolve_lines]. destruct (split_once l) as [[k w]|] eqn:S.
      + apply split_some in S as [-> K]. destruct (beq (trim ws k) h) eqn:B.
        * apply beq_eq in B. split.
          -- intros [= <-]. exists [], (k ++ [61] ++ w), r. split; [reflexivity|]. split; [|intros x u []].
             exists k, w. split; [reflexivity|]. split; [exact K|]. split; apply trimmed_iff; congruence.
          -- intros (a & l & b & E & G & N). destruct a as [|x a].
             ++ injection E as <- <-. destruct G as (k1 & w1 & E & K1 & T1 & T2).
                assert (X : split_once (k ++ [61] ++ w) = Some (k1, w1)) by (apply split_some; auto).
                assert (Y : split_once (k ++ [61] ++ w) = Some (k, w)) by (apply split_some; auto).
                rewrite X in Y. injection Y as -> ->. apply trimmed_iff in T2. congruence.
             ++ injection E as <- _. exfalso. apply (N (k ++ [61] ++ w) (trim ws w)); [left; reflexivity|].
                exists k, w. split; [reflexivity|]. split; [exact K|]. split; apply trimmed_iff; congruence.
        * rewrite IH. split; intros (a & l & b & E & G & N).
          -- exists ((k ++ [61] ++ w) :: a), l, b. rewrite E. split; [reflexivity|]. split; [exact G|].
             intros x u [<-|X]; [|apply N, X]. intros (k1 & w1 & E1 & K1 & T1 & T2).
             assert (X : split_once (k ++ [61] ++ w) = Some (k1, w1)) by (apply split_some; auto).
             assert (Y : split_once (k ++ [61] ++ w) = Some (k, w)) by (apply split_some; auto).
             rewrite X in Y. injection Y as -> ->. apply trimmed_iff in T1. rewrite <- T1, beq_refl in B. discriminate.
          -- destruct a as [|x a].
             ++ injection E as <- <-. exfalso. destruct G as (k1 & w1 & E1 & K1 & T1 & T2).
                assert (X : split_once (k ++ [61] ++ w) = Some (k1, w1)) by (apply split_some; auto).
                assert (Y : split_once (k ++ [61] ++ w) = Some (k, w)) by (apply split_some; auto).
                rewrite X in Y. injection Y as -> ->. apply trimmed_iff in T1. rewrite <- T1, beq_refl in B. discriminate.
             ++ injection E as <- ->. exists a, l, b. split; [reflexivity|]. split; [exact G|].
                intros y u Y. apply N. right. exact Y.
      + apply split_none in S. rewrite IH. split; intros (a & y & b & E & G & N).
        * exists (l :: a), y, b. rewrite E. split; [reflexivity|]. split; [exact G|].
          intros x u [<-|X]; [|apply N, X]. intros (k1 & w1 & -> & _). apply S, in_or_app. right. left. reflexivity.
        * destruct a as [|x a].
          -- injection E as <- <-. exfalso. destruct G as (k1 & w1 & -> & _). apply S, in_or_app. right. left. reflexivity.
          -- injection E as <- ->. exists a, y, b. split; [reflexivity|]. split; [exact G|].
             intros z u Z. apply N. right. exact Z. }
  rewrite G. split; intros (a & l & b & E & R).
  - exists a, l, b. split; [apply (made_of_iff ws); symmetry; exact E|exact R].
  - exists a, l, b. split; [apply (made_of_iff ws) in E; symmetry; exact E|exact R].
Qed.
Print Assumptions C114_any_book.

Example C114_any_book_case :
  let f := lit "# my own" ++ nl ++ nl ++ lit " me.i2p = MINE #!x " ++ nl ++ lit "me.i2p=OLD" in
  resolve ascii_ws (Some f) (lit "me.i2p") = Some (lit "MINE #!x") /\ resolve ascii_ws (Some f) (lit "you.i2p") = None.
Proof. split; vm_compute; reflexivity. Qed.

(** So what comes later does not change the address of a name that has one. *)
Theorem C114_never_overridden : forall ws ord num old atts more h v,
  ws 13 = true -> (forall m, Permutation (ord m) m) -> all_written (atts ++ more) ->
  b_ask (brun ws ord num (start old) atts) <> Main ->
  resolve ws (b_file (brun ws ord num (start old) atts)) h = Some v ->
  resolve ws (b_file (brun ws ord num (start old) (atts ++ more))) h = Some v.
Proof.
  intros ws ord num old atts more h v Wcr P W K R. induction more as [|a more IH] using rev_ind.
  - rewrite app_nil_r. exact R.
  - rewrite app_assoc in W |- *. apply Forall_app in W as [W W1]. specialize (IH W). clear R.
    assert (K' : b_ask (brun ws ord num (start old) (atts ++ more)) <> Main).
    { clear IH W W1. induction more as [|x more IH] using rev_ind; [rewrite app_nil_r; exact K|].
      rewrite app_assoc. unfold brun in *. rewrite fold_left_app. cbn [fold_left].
      set (b := fold_left (bstep ws ord num) (atts ++ more) (start old)) in *. unfold bstep.
      destruct (b_ask b) as [|i n|] eqn:B; [congruence| |rewrite B; discriminate].
      unfold next_sub. destruct (a_got x); cbn [b_ask];
        repeat match goal with |- context [if ?c then _ else _] => destruct c end; discriminate. }
    destruct (run_inv ws ord num old (atts ++ more)) as (used & extra & E & X & M & A).
    destruct (file_inv ws ord num old (atts ++ more) W) as [(_ & _ & Z)|[F _]]; [congruence|].
    unfold brun in *. rewrite fold_left_app. cbn [fold_left]. set (b := fold_left (bstep ws ord num) (atts ++ more) (start old)) in *.
    inversion W1 as [|? ? [Cr Cu] _]; subst. unfold bstep, save. rewrite Cr, Cu.
    assert (R : assoc h (merged ws (somes used)) = Some v).
    { rewrite F, M in IH. rewrite (resolve_serialize ws Wcr) in IH by (apply ord_good; exact P). rewrite ord_assoc in IH by exact P. exact IH. }
    destruct (b_ask b) as [|i n|] eqn:B; [congruence| |exact IH].
    destruct (a_got a) as [hs|]; cbn [b_file]; [|exact IH].
    rewrite M, <- merged_app. rewrite (resolve_serialize ws Wcr) by (apply ord_good; exact P). rewrite ord_assoc by exact P.
    rewrite merged_app. unfold merge. rewrite merge_assoc, R. reflexivity.
Qed.
Print Assumptions C114_never_overridden.

(** The main file fails twice and is there at the third attempt; the first subscription never
    answers; the second lists [a.i2p] again, in vain. *)
Definition ex_atts : list attempt := [failed; failed; got hosts1] ++ repeat failed 5 ++ [failed; got hosts2].
Definition ex_book : book := brun ascii_ws (@rev _) 2 (start (Some (lit "old.i2p=OLD"))) ex_atts.
Example C114_case :
  b_ask ex_book = Done
  /\ resolve ascii_ws (b_file ex_book) (lit "a.i2p") = Some (lit "AAAA")
  /\ resolve ascii_ws (b_file ex_book) (lit "b.i2p") = Some (lit "BBBB")
  /\ resolve ascii_ws (b_file ex_book) (lit "c.i2p") = Some (lit "CC=C")
  /\ resolve ascii_ws (b_file ex_book) (lit "d.i2p") = None
  /\ all_written ex_atts.
Proof. do 5 (split; [vm_compute; reflexivity|]). repeat (constructor; [split; reflexivity|]). constructor. Qed.

(** * C115: crashes and restarts *)
Definition cut_at (hosts : list N) (k : nat) : attempt := mkAttempt (Some hosts) true (Some k).

(** If the router dies, or the disk is full, while the book is written, a name resolves to a prefix
    of its address or not at all.  Missing: that it keeps its address, see the next theorem. *)
Theorem C115_cut_partial : forall ws ord num old atts hosts k h p,
  ws 13 = true -> (forall m, Permutation (ord m) m) ->
  resolve ws (b_file (brun ws ord num (start old) (atts ++ [cut_at hosts k]))) h = Some p ->
  exists s, resolve ws (b_file (brun ws ord num (start old) (atts ++ [got hosts]))) h = Some (p ++ s).
Proof.
  intros ws ord num old atts hosts k h p Wcr P R. destruct (run_inv ws ord num old atts) as (used & extra & E & X & M & A).
  unfold brun in *. rewrite fold_left_app in R |- *. cbn [fold_left] in *. set (b := fold_left (bstep ws ord num) atts (start old)) in *.
  unfold bstep, save in *. cbn [cut_at got a_got a_created a_cut] in *. rewrite M, <- merged_app in *.
  assert (G : forall t, resolve ws (Some (firstn k (serialize (ord (merged ws t))))) h = Some p ->
    exists s, resolve ws (Some (serialize (ord (merged ws t)))) h = Some (p ++ s)).
  { intros t H. rewrite (resolve_serialize ws Wcr) by (apply ord_good; exact P). apply (resolve_cut ws Wcr _ k); [apply ord_good; exact P|exact H]. }
  destruct (b_ask b); cbn [b_file] in *; [apply G; exact R|apply G; exact R|].
  exists []. rewrite app_nil_r. exact R.
Qed.
Print Assumptions C115_cut_partial.

(** The file is truncated first and then written in place: whenever a name has an address of two or
    more characters, there is a point at which a crash leaves it with one character of it, and one
    (the first) at which a crash leaves no name at all, even if the name had the same address
    before. *)
Theorem C115_crash_refuted : forall ws ord num old atts hosts h c d v,
  ws 13 = true -> (forall m, Permutation (ord m) m) ->
  b_ask (brun ws ord num (start old) atts) <> Done ->
  resolve ws (b_file (brun ws ord num (start old) (atts ++ [got hosts]))) h = Some (c :: d :: v) ->
  (exists k, resolve ws (b_file (brun ws ord num (start old) (atts ++ [cut_at hosts k]))) h = Some [c])
  /\ forall x, resolve ws (b_file (brun ws ord num (start old) (atts ++ [cut_at hosts 0]))) x = None.
Proof.
  intros ws ord num old atts hosts h c d v Wcr P K R. destruct (run_inv ws ord num old atts) as (used & extra & E & X & M & A).
  unfold brun in *.
  assert (G : forall a, b_file (fold_left (bstep ws ord num) (atts ++ [a]) (start old))
    = match a_got a with Some hs => save ord (merged ws (somes used ++ [hs])) (b_file (fold_left (bstep ws ord num) atts (start old))) (a_created a) (a_cut a)
      | None => b_file (fold_left (bstep ws ord num) atts (start old)) end).
  { intros a. rewrite fold_left_app. cbn [fold_left]. set (b := fold_left (bstep ws ord num) atts (start old)) in *.
    unfold bstep. rewrite M. destruct (b_ask b); [| |congruence]; destruct (a_got a); cbn [b_file]; try reflexivity; rewrite merged_app; reflexivity. }
  rewrite G in R. cbn [got a_got a_created a_cut save] in R. set (m := ord (merged ws (somes used ++ [hosts]))) in *.
  assert (C : Forall (clean ws) m) by (apply ord_good; exact P).
  rewrite (resolve_serialize ws Wcr) in R by exact C.
  split.
  - assert (Sp : exists a b, m = a ++ (h, c :: d :: v) :: b /\ assoc h a = None).
    { clear -R. induction m as [|[k w] m IH]; [discriminate|]. unfold assoc in R. cbn in R. destruct (beq h k) eqn:B.
      - apply beq_eq in B as ->. injection R as ->. exists [], m. auto.
      - destruct (IH R) as (a & b & -> & Z). exists ((k, w) :: a), b. split; [reflexivity|]. unfold assoc. cbn. rewrite B. exact Z. }
    destruct Sp as (a & b & Em & Z). exists (length (serialize a ++ h ++ [61; c])). rewrite G. cbn [cut_at a_got a_created a_cut save].
    fold m. rewrite Em. rewrite Em in C. apply (resolve_cut_in ws Wcr); assumption.
  - intros x. rewrite G. reflexivity.
Qed.
Print Assumptions C115_crash_refuted.

(** Every start begins with an empty map, so a name that an earlier run had saved is lost with the
    first download after a restart unless that download lists it. *)
Theorem C115_restart_refuted : forall ws ord num old hosts fails h v,
  ws 13 = true -> (forall m, Permutation (ord m) m) ->
  resolve ws old h = Some v -> (forall ls, made_of hosts ls -> forall l w, In l ls -> ~ gives ws l h w) ->
  resolve ws (b_file (brun ws ord num (start old) (repeat failed fails))) h = Some v
  /\ resolve ws (b_file (brun ws ord num (start old) (repeat failed fails ++ [got hosts]))) h = None.
Proof.
  intros ws ord num old hosts fails h v Wcr P R N.
  assert (B : brun ws ord num (start old) (repeat failed fails) = start old) by (induction fails; [reflexivity|exact IHfails]).
  split; [rewrite B; exact R|]. unfold brun in *. rewrite fold_left_app, B.
  assert (G : b_file (fold_left (bstep ws ord num) [got hosts] (start old)) = Some (serialize (ord (merged ws [hosts])))) by reflexivity.
  rewrite G, (resolve_serialize ws Wcr) by (apply ord_good; exact P). rewrite ord_assoc by exact P. rewrite merged_assoc.
  cbn [map concat]. rewrite app_nil_r. destruct (first_entry ws (lines hosts) h) as [w|] eqn:F; [|reflexivity].
  apply first_entry_iff in F as (a & l & b & L & Gv & _). exfalso. apply (N (lines hosts) (lines_made (fun _ => true) hosts) l w); [|exact Gv].
  rewrite L. apply in_or_app. right. left. reflexivity.
Qed.
Print Assumptions C115_restart_refuted.

Example C115_case :
  let run a := b_file (brun ascii_ws (fun m => m) 1 (start None) [got hosts1; a]) in
  resolve ascii_ws (run failed) (lit "a.i2p") = Some (lit "AAAA")
  /\ resolve ascii_ws (run (got hosts2)) (lit "a.i2p") = Some (lit "AAAA")
  /\ resolve ascii_ws (run (cut_at hosts2 8)) (lit "a.i2p") = Some (lit "AA")
  /\ resolve ascii_ws (run (cut_at hosts2 8)) (lit "b.i2p") = None
  /\ resolve ascii_ws (Some (lit "old.i2p=OLD")) (lit "old.i2p") = Some (lit "OLD")
  /\ resolve ascii_ws (b_file ex_book) (lit "old.i2p") = None.
Proof. repeat split; vm_compute; reflexivity. Qed.

(** * C116: how often hosts files are asked for *)
(** The main file is asked for until it is there, and nothing else before that; then every
    subscription is asked for in turn, until it answers and at most five times, whatever became of
    the ones before. *)
Theorem C116_asked_in_turn : forall ws ord num old atts b,
  brun ws ord num (start old) atts = b ->
  exists used extra, map a_got atts = used ++ extra
    /\ (extra = [] \/ b_ask b = Done) /\ (b_ask b = Done <-> asked_all num used)
    /\ (b_ask b = Main <-> used = repeat None (length used))
    /\ (forall i n, b_ask b = Sub i n <-> exists m h blocks,
          used = repeat None m ++ [Some h] ++ concat blocks ++ repeat None n /\ length blocks = i /\ Forall tried blocks
          /\ (i < num)%nat /\ (n < 5)%nat).
Proof.
  intros ws ord num old atts b <-. destruct (run_inv ws ord num old atts) as (used & extra & E & X & M & A).
  exists used, extra. split; [exact E|]. split; [exact X|]. split; [apply (at_done _ _ _ A)|].
  destruct (b_ask (brun ws ord num (start old) atts)) as [|i n|] eqn:K.
  - destruct A as [m ->]. rewrite repeat_length. split; [tauto|]. intros i n. split; [discriminate|]. intros (m' & h & bs & Z & _).
    exfalso. assert (Y : In (Some h) (repeat (@None (list N)) m)) by (rewrite Z; apply in_or_app; right; left; reflexivity).
    apply repeat_spec in Y. discriminate.
  - split.
    + split; [discriminate|]. intros Z. exfalso. destruct A as (m & h & bs & U & _).
      assert (Y : In (Some h) (repeat (@None (list N)) (length used))) by (rewrite <- Z, U; apply in_or_app; right; left; reflexivity).
      apply repeat_spec in Y. discriminate.
    + intros i' n'. split; [intros [= <- <-]; exact A|]. intros (m' & h' & bs' & Z & L' & F' & I' & N').
      destruct A as (m & h & bs & U & L & F & I & N5). rewrite U in Z. apply none_some_eq in Z as (_ & _ & Z).
      assert (Same : bs = bs' /\ n = n').
      { clear -Z F F' N5 N'. revert bs' Z F'. induction F as [|b bs T F IH]; intros bs' Z F'.
        - destruct F' as [|b' bs' T' F'].
          + cbn in Z. split; [reflexivity|]. apply (f_equal (@length _)) in Z. rewrite !repeat_length in Z. exact Z.
          + exfalso. cbn in Z. rewrite <- app_assoc in Z. destruct T' as [->|(q & hq & Q & ->)].
            * apply (f_equal (@length _)) in Z. rewrite !app_length, !repeat_length in Z. lia.
            * assert (Y : In (Some hq) (repeat (@None (list N)) n)) by (rewrite Z; apply in_or_app; left; apply in_or_app; right; left; reflexivity).
              apply repeat_spec in Y. discriminate.
        - destruct F' as [|b' bs' T' F'].
          + exfalso. cbn in Z. rewrite <- app_assoc in Z. symmetry in Z. destruct T as [->|(q & hq & Q & ->)].
            * apply (f_equal (@length _)) in Z. rewrite !app_length, !repeat_length in Z. lia.
            * assert (Y : In (Some hq) (repeat (@None (list N)) n')) by (rewrite Z; apply in_or_app; left; apply in_or_app; right; left; reflexivity).
              apply repeat_spec in Y. discriminate.
          + cbn in Z. rewrite <- !app_assoc in Z. apply tried_prefix in Z as [-> Z]; [|assumption|assumption].
            destruct (IH bs' Z F') as [-> ->]. auto. }
      destruct Same as [-> ->]. subst. reflexivity.
  - split.
    + split; [discriminate|]. intros Z. exfalso. destruct A as (m & h & bs & U & _).
      assert (Y : In (Some h) (repeat (@None (list N)) (length used))) by (rewrite <- Z, U; apply in_or_app; right; left; reflexivity).
      apply repeat_spec in Y. discriminate.
    + intros i n. split; [discriminate|]. intros (m' & h' & bs' & Z & L' & F' & I' & N'). exfalso.
      destruct A as (m & h & bs & U & L & F). rewrite U in Z. apply none_some_eq in Z as (_ & _ & Z). symmetry in Z.
      apply (blocks_short bs' bs (repeat None n) F' F ltac:(lia) n N' eq_refl Z).
Qed.
Print Assumptions C116_asked_in_turn.

(** Once the main file is there, the manager is done after at most five requests per
    subscription. *)
Theorem C116_ends : forall ws ord num old before hosts more,
  (5 * num <= length more)%nat ->
  b_ask (brun ws ord num (start old) (before ++ got hosts :: more)) = Done.
Proof.
  intros ws ord num old before hosts more L.
  destruct (run_inv ws ord num old (before ++ got hosts :: more)) as (used & extra & E & X & M & A).
  destruct X as [->|X]; [|exact X]. rewrite app_nil_r in E. subst used. rewrite map_app in A. cbn [map got a_got] in A.
  destruct (b_ask (brun ws ord num (start old) (before ++ got hosts :: more))) as [|i n|]; [exfalso|exfalso|reflexivity].
  - destruct A as [m Z]. assert (Y : In (Some hosts) (repeat (@None (list N)) m)) by (rewrite <- Z; apply in_or_app; right; left; reflexivity).
    apply repeat_spec in Y. discriminate.
  - destruct A as (m & h & bs & Z & Lb & F & I & N5).
    assert (Len : (length (concat bs) <= 5 * length bs)%nat).
    { clear -F. induction F as [|b bs T F IH]; [cbn; lia|]. cbn [concat length]. rewrite app_length.
      assert (length b <= 5)%nat; [|lia]. destruct T as [->|(n & h & K & ->)]; [rewrite repeat_length; lia|]. rewrite app_length, repeat_length. cbn. lia. }
    assert (Pre : forall (p : list (option (list N))) x q y, p ++ Some x :: q = repeat None m ++ Some h :: y -> (length q <= length y)%nat).
    { intros p x q y. clear Z. revert p. induction m as [|m' IHm]; intros p Q.
      - destruct p as [|z p]; cbn in Q; [injection Q as _ Q; subst; lia|]. injection Q as _ Q. subst y. rewrite app_length. cbn. lia.
      - destruct p as [|z p]; cbn in Q; [discriminate|]. injection Q as _ Q. apply (IHm p Q). }
    apply Pre in Z. rewrite map_length, app_length, repeat_length in Z. lia.
Qed.
Print Assumptions C116_ends.

Example C116_case :
  b_ask (brun ascii_ws (@rev _) 2 (start None) [failed; got hosts1; failed; failed]) = Sub 0 2
  /\ b_ask (brun ascii_ws (@rev _) 2 (start None) ([failed; got hosts1] ++ repeat failed 5)) = Sub 1 0
  /\ b_ask (brun ascii_ws (@rev _) 2 (start None) [failed; got hosts1; got hosts2]) = Sub 1 0
  /\ b_ask (brun ascii_ws (@rev _) 2 (start None) (repeat failed 40)) = Main.
Proof. repeat split; vm_compute; reflexivity. Qed.
