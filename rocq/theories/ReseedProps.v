(** * C125-C126: what a reseed file is taken to say, and which servers are asked *)
From Coq Require Import List NArith Bool Arith Lia.
From Verif Require Import Bytes ReseedModel ReseedSpec ReseedProofs.
Import ListNotations.
Open Scope N_scope.

(** ** C125 *)

(** Every SU3 file is read, whatever follows it, field by field. *)
Theorem C125_reads : forall x t, file_ok x ->
  exists s, parse_inner (file_bytes x ++ t) = Some (s, t) /\
    s_content s = f_content x /\ s_content_kind s = f_content_kind x /\ s_file_kind s = f_file_kind x /\
    s_signature s = f_signature x /\ s_signature_kind s = f_sig_kind x /\ s_signer s = f_signer x /\
    s_version s = f_version x.
Proof.
  intros x t H. eexists. split; [apply parse_file; exact H|]. repeat (split; [reflexivity|]). reflexivity.
Qed.
Print Assumptions C125_reads.

(** And nothing else is. *)
Theorem C125_only : forall i s t, bytes_ok i -> parse_inner i = Some (s, t) ->
  exists x, file_ok x /\ i = file_bytes x ++ t.
Proof. exact parse_only. Qed.
Print Assumptions C125_only.

(** The routers got from a reseed file are the plain files of its archive with harmless names, in
    order; it must be a zip file of reseed data. *)
Theorem C125_routers : forall unzip check x t verify l, file_ok x ->
  (snd (parse_reseed unzip check (file_bytes x ++ t) verify) = Good l <->
   f_file_kind x = 0 /\ f_content_kind x = 3 /\
   exists es, unzip (f_content x) = Some (map Some es) /\ routers es l).
Proof.
  intros unzip check x t verify l Ok. unfold parse_reseed. rewrite parse_file by exact Ok. cbn [snd seen s_file_kind s_content_kind s_content].
  assert (R : forall es l, read_entries es = Some l <-> exists zs, es = map Some zs /\ routers zs l).
  { clear. induction es as [|[z|] es IH]; intros l; cbn [read_entries].
    - split.
      + intros H. injection H as <-. exists []. split; [reflexivity|constructor].
      + intros (zs & Z & H). destruct zs; [|discriminate]. inversion H. reflexivity.
    - split.
      + intros H. destruct (read_entries es) as [r|] eqn:E; [|discriminate].
        destruct (proj1 (IH r) eq_refl) as (zs & -> & Rz). exists (z :: zs). split; [reflexivity|].
        destruct (read_entry z) as [x|] eqn:Ex; injection H as <-.
        * apply routers_take; [apply read_entry_iff; exact Ex|exact Rz].
        * apply routers_skip; [|exact Rz]. intros x X. apply read_entry_iff in X. congruence.
      + intros (zs & Z & H). destruct zs as [|z' zs]; [discriminate|]. injection Z as <- ->.
        inversion H as [|z0 x0 zs0 l0 A B|z0 zs0 l0 A B]; subst.
        * rewrite (proj2 (IH l0)) by (exists zs; auto). apply read_entry_iff in A. rewrite A. reflexivity.
        * rewrite (proj2 (IH l)) by (exists zs; auto). destruct (read_entry z) as [x|] eqn:Ex; [|reflexivity].
          apply read_entry_iff in Ex. destruct (A x Ex).
    - split; [discriminate|]. intros (zs & Z & _). destruct zs; discriminate. }
  destruct (N.eqb_spec (f_file_kind x) 0) as [K1|K1]; [|split; [discriminate|intros (X & _); congruence]].
  destruct (N.eqb_spec (f_content_kind x) 3) as [K2|K2]; [|split; [discriminate|intros (_ & X & _); congruence]].
  cbn [andb]. destruct (unzip (f_content x)) as [es|] eqn:E.
  - destruct (read_entries es) as [r|] eqn:Er.
    + split.
      * intros H. injection H as <-. apply R in Er as (zs & -> & Rz). split; [exact K1|]. split; [exact K2|]. exists zs. auto.
      * intros (_ & _ & zs & Z & Rz). assert (X : read_entries es = Some l) by (apply R; exists zs; split; [congruence|exact Rz]).
        congruence.
    + split; [discriminate|]. intros (_ & _ & zs & Z & Rz).
      assert (X : read_entries es = Some l) by (apply R; exists zs; split; [congruence|exact Rz]). congruence.
  - split; [discriminate|]. intros (_ & _ & zs & Z & _). discriminate.
Qed.
Print Assumptions C125_routers.

(** Finding: a reseed file with an entry the zip library cannot open (an encrypted one, say) brings
    the caller down. *)
Theorem C125_crash_refuted : forall unzip check x t verify es es',
  file_ok x -> f_file_kind x = 0 -> f_content_kind x = 3 -> unzip (f_content x) = Some (map Some es ++ None :: es') ->
  snd (parse_reseed unzip check (file_bytes x ++ t) verify) = Crash.
Proof.
  intros unzip check x t verify es es' Ok K1 K2 U. unfold parse_reseed. rewrite parse_file by exact Ok.
  cbn [snd seen s_file_kind s_content_kind s_content]. rewrite K1, K2, U. cbn [N.eqb andb Pos.eqb].
  assert (X : read_entries (map Some es ++ None :: es') = None) by (clear; induction es as [|z es IH]; cbn; [reflexivity|rewrite IH; reflexivity]).
  rewrite X. reflexivity.
Qed.
Print Assumptions C125_crash_refuted.

(** Finding: the bytes whose signature is checked are not the signed ones, but as many of the first
    bytes of the file as the signature has (and whatever follows it). *)
Theorem C125_signed_refuted : forall x, file_ok x -> (length (f_signature x) < length (signed_part x))%nat ->
  exists s, parse_inner (file_bytes x) = Some (s, []) /\
    s_message s = firstn (length (f_signature x)) (signed_part x) /\ s_message s <> signed_part x.
Proof.
  intros x Ok L. pose proof (parse_file x [] Ok) as P. rewrite app_nil_r in P. eexists. split; [exact P|].
  cbn [seen s_message length]. rewrite Nat.add_0_r. unfold file_bytes.
  rewrite firstn_app. replace (length (f_signature x) - length (signed_part x))%nat with O by lia. cbn [firstn]. rewrite app_nil_r.
  split; [reflexivity|]. intros X. apply (f_equal (@length N)) in X. rewrite firstn_length in X. lia.
Qed.
Print Assumptions C125_signed_refuted.

(** Finding: a file whose signature fails the check, or whose signer is not known, is used all the
    same, even when checking was asked for. *)
Theorem C125_unchecked_refuted : forall unzip check check' input,
  snd (parse_reseed unzip check input true) = snd (parse_reseed unzip check' input false).
Proof. intros. unfold parse_reseed. destruct (parse_inner input) as [[s t]|]; reflexivity. Qed.
Print Assumptions C125_unchecked_refuted.

Definition ex_file : su3file :=
  mkFile 6 0 3 (repeat 49 16) [97; 64; 98] [1; 2; 3] (repeat 7 30) 0 0 0 0 0 0 (repeat 0 12).
Definition ex_unzip (c : list N) : option (list (option zentry)) :=
  if beq c [1; 2; 3] then
    Some [Some (mkZ [46; 46; 47; 97] true (Some [9])); Some (mkZ [97; 47; 46; 46; 47; 98] true (Some [5]));
          Some (mkZ [99] false (Some [])); Some (mkZ [100] true None); Some (mkZ [101] true (Some [6; 6]))]
  else None.
Example C125_case : file_ok ex_file /\ (length (f_signature ex_file) < length (signed_part ex_file))%nat /\
  parse_reseed ex_unzip (fun _ _ _ => Some false) (file_bytes ex_file ++ [4]) true =
  (true, Good [([97; 47; 46; 46; 47; 98], [5]); ([101], [6; 6])]).
Proof.
  split; [unfold file_ok; vm_compute; repeat (split; [first [reflexivity|discriminate|left; discriminate]|]); reflexivity|].
  split; vm_compute; [repeat constructor|reflexivity].
Qed.

(** ** C126 *)

Section C126.
Context (unzip : list N -> option (list (option zentry))) (check : list N -> list N -> list N -> option bool).
Context (answer : nat -> reply).
Open Scope nat_scope.

(** At most five servers of the list are asked, none twice. *)
Theorem C126_asked : forall n picks asked res, Forall (fun p => p < n) picks ->
  reseed unzip check n answer picks = (asked, res) ->
  NoDup asked /\ length asked <= 5 /\ forall p, In p asked -> p < n.
Proof.
  intros n picks asked res F H. destruct n as [|n]; [injection H as <- _; split; [constructor|split; [cbn; lia|intros p []]]|].
  unfold reseed in H. apply ask_spec in H as (A & B & C); [|constructor|intros p []].
  split; [exact A|]. split.
  - unfold NUM_RETRIES in C. cbn [length] in C. destruct res; cbn in C; lia.
  - intros p Hp. destruct (B p Hp) as [[]|X]. rewrite Forall_forall in F. exact (F p X).
Qed.

(** The routers are those of the first of them whose answer is of use. *)
Theorem C126_first : forall n picks asked l, reseed unzip check n answer picks = (asked, Reseeded l) ->
  exists before p b, asked = before ++ [p] /\ (forall q, In q before -> useless unzip check (answer q)) /\
    answer p = Body b /\ snd (parse_reseed unzip check b false) = Good l.
Proof.
  intros n picks asked l H. destruct n as [|n]; [discriminate|]. unfold reseed in H.
  apply ask_spec in H as (_ & _ & C); [|constructor|intros p []].
  destruct C as (_ & before & p & A & B & b & C & D). exists before, p, b. auto.
Qed.

(** It gives up only after five servers whose answers were of no use. *)
Theorem C126_gives_up : forall n picks asked, reseed unzip check n answer picks = (asked, Failed) ->
  length asked = 5 /\ NoDup asked /\ forall p, In p asked -> useless unzip check (answer p).
Proof.
  intros n picks asked H. destruct n as [|n]; [discriminate|]. unfold reseed in H.
  apply ask_spec in H as (A & _ & C & D); [|constructor|intros p []]. auto.
Qed.

(** It comes to an end once five different servers, or one with an answer of use, were drawn. *)
Theorem C126_ends : forall n picks asked l, n <> 0 ->
  reseed unzip check n answer picks = (asked, Asking) ->
  (NoDup l -> incl l picks -> length l < 5) /\ forall p, In p picks -> useless unzip check (answer p).
Proof.
  intros n picks asked l N H. destruct n as [|n]; [congruence|]. unfold reseed in H.
  apply ask_spec in H as (A & B & C & D & F); [|constructor|intros p []]. unfold NUM_RETRIES in C. cbn [length Nat.add] in C. split.
  - intros ND I. assert (length l <= length asked) by (apply NoDup_incl_length; [exact ND|intros p Hp; apply F, I, Hp]). lia.
  - intros p Hp. apply D, F, Hp.
Qed.

(** It crashes only without any servers, or for an archive that cannot be read through. *)
Theorem C126_crash : forall n picks asked, reseed unzip check n answer picks = (asked, Crashed) ->
  n = 0 \/ exists p b, In p asked /\ answer p = Body b /\ snd (parse_reseed unzip check b false) = Crash.
Proof.
  intros n picks asked H. destruct n as [|n]; [left; reflexivity|right]. unfold reseed in H.
  apply ask_spec in H as (_ & _ & _ & before & p & b & A & _ & B & C); [|constructor|intros p []].
  exists p, b. split; [rewrite A; apply in_app_iff; right; left; reflexivity|auto].
Qed.

(** Finding: with fewer than five servers, none of whose answers is of use, it never comes to an
    end, however long the random numbers go on; and with none it panics. *)
Theorem C126_few_refuted : forall n picks, 0 < n < 5 -> Forall (fun p => p < n) picks ->
  (forall p, p < n -> useless unzip check (answer p)) ->
  exists asked, reseed unzip check n answer picks = (asked, Asking).
Proof.
  intros n picks Hn F U. destruct (reseed unzip check n answer picks) as [asked res] eqn:H.
  exists asked. f_equal. destruct n as [|n]; [lia|].
  pose proof (C126_asked _ _ _ _ F H) as (ND & _ & Lt). destruct res; [reflexivity| | |].
  - apply C126_crash in H as [X|(p & b & I & A & B)]; [discriminate|]. pose proof (U p (Lt p I)) as X. rewrite A in X. cbn [useless] in X. congruence.
  - apply C126_gives_up in H as (L & _ & _).
    assert (X : length asked <= length (seq 0 (S n))) by (apply NoDup_incl_length; [exact ND|intros p Hp; apply in_seq; specialize (Lt p Hp); lia]).
    rewrite seq_length in X. lia.
  - apply C126_first in H as (before & p & b & A & _ & B & C).
    assert (X : useless unzip check (answer p)) by (apply U, Lt; rewrite A; apply in_app_iff; right; left; reflexivity).
    rewrite B in X. cbn [useless] in X. congruence.
Qed.
End C126.
Print Assumptions C126_asked.
Print Assumptions C126_first.
Print Assumptions C126_gives_up.
Print Assumptions C126_ends.
Print Assumptions C126_crash.
Print Assumptions C126_few_refuted.

(** Reseeding is done exactly if it is configured and fewer routers are known than its threshold, or
    it is forced. *)
Theorem C126_when : forall threshold force known,
  should_reseed threshold force known = true <->
  (exists t, threshold = Some t /\ (known < t)%nat) \/ force = Some true.
Proof.
  intros threshold force known. unfold should_reseed. rewrite orb_true_iff. split.
  - intros [H|H].
    + destruct threshold as [t|]; [|discriminate]. left. exists t. split; [reflexivity|]. apply Nat.ltb_lt. exact H.
    + right. destruct force as [[|]|]; [reflexivity|discriminate|discriminate].
  - intros [(t & -> & H)| ->]; [left; apply Nat.ltb_lt; exact H|right; reflexivity].
Qed.
Print Assumptions C126_when.

Definition ex_answer (p : nat) : reply :=
  match p with 0 => NoReply | 1 => BadStatus | 2 => Body [1%N] | 3 => Body (file_bytes ex_file) | _ => NoBody end%nat.
Example C126_case :
  reseed ex_unzip (fun _ _ _ => None) 13 ex_answer [1; 0; 1; 7; 1; 0; 3; 2]%nat =
  ([1; 0; 7; 3]%nat, Reseeded [([97; 47; 46; 46; 47; 98], [5]); ([101], [6; 6])]) /\
  reseed ex_unzip (fun _ _ _ => None) 3 ex_answer [1; 0; 1; 2; 1; 0; 0; 2]%nat = ([1; 0; 2]%nat, Asking) /\
  reseed ex_unzip (fun _ _ _ => None) 13 ex_answer [1; 0; 12; 2; 1; 10; 3; 2]%nat = ([1; 0; 12; 2; 10]%nat, Failed).
Proof. vm_compute. auto. Qed.
