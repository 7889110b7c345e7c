(** Byte strings, big-endian integers and nom-style parsers.

    Models the nom combinators used all over /repo/emissary-core/src: [take], [be_u8],
    [be_u16], [be_u32], [be_u64] (complete or streaming: "incomplete" and "error" are both
    [None] here) and [bytes::BufMut]'s put_u8 … put_u64, put_slice. *)
From Coq Require Import List NArith Bool Lia Arith ZArith ZifyBool ZifyNat ZifyN.
From Verif Require Import ListUtil.
Import ListNotations.
Open Scope N_scope.

(** A byte is an [N] below 256. *)
Notation byte := N (only parsing).
Notation bytes := (list N) (only parsing).
Definition byte_ok (b : N) : Prop := b < 256.
Definition bytes_ok (l : list N) : Prop := Forall byte_ok l.

(** Value of a big-endian byte string. *)
Fixpoint be_val_from (acc : N) (l : list N) : N :=
  match l with
  | [] => acc
  | b :: t => be_val_from (acc * 256 + b) t
  end.
Definition be_val (l : list N) : N := be_val_from 0 l.

(** [k] bytes, big endian, of [n mod 256^k] (the [as uN] cast is part of it). *)
Fixpoint be_bytes (k : nat) (n : N) : list N :=
  match k with
  | O => []
  | S k' => be_bytes k' (n / 256) ++ [n mod 256]
  end.

(** Parsers: consume a prefix of the input or fail. *)
Definition parser (A : Type) : Type := list N -> option (A * list N).

Definition take (n : nat) : parser (list N) := fun i =>
  if (n <=? length i)%nat then Some (firstn n i, skipn n i) else None.

Definition be_uint (k : nat) : parser N := fun i =>
  match take k i with
  | Some (b, r) => Some (be_val b, r)
  | None => None
  end.

Definition bind {A B} (p : parser A) (f : A -> parser B) : parser B := fun i =>
  match p i with
  | Some (a, r) => f a r
  | None => None
  end.
Definition ret {A} (a : A) : parser A := fun i => Some (a, i).
Definition fail {A} : parser A := fun _ => None.
Definition guard (b : bool) : parser unit := fun i => if b then Some (tt, i) else None.

Declare Scope parser_scope.
Notation "x <- p ;; q" := (bind p (fun x => q))
  (at level 61, p at next level, right associativity) : parser_scope.
Notation "' x <- p ;; q" := (bind p (fun x => q))
  (at level 61, x pattern, p at next level, right associativity) : parser_scope.
Open Scope parser_scope.

(** Parse [n] items in a row. *)
Fixpoint many {A} (n : nat) (p : parser A) : parser (list A) :=
  match n with
  | O => ret []
  | S n' => x <- p ;; xs <- many n' p ;; ret (x :: xs)
  end.

(** ** Lemmas *)
Lemma be_bytes_length k : forall n, length (be_bytes k n) = k.
Proof. induction k; intros; cbn [be_bytes]; [easy|]. rewrite app_length, IHk. cbn. lia. Qed.

Lemma be_bytes_ok k : forall n, bytes_ok (be_bytes k n).
Proof.
  induction k; intros; cbn [be_bytes]; [constructor|]. apply Forall_app. split; [apply IHk|].
  constructor; [|constructor]. unfold byte_ok. apply N.mod_lt. lia.
Qed.

Lemma be_val_from_app l1 : forall acc l2,
  be_val_from acc (l1 ++ l2) = be_val_from (be_val_from acc l1) l2.
Proof. induction l1; intros; cbn [be_val_from app]; auto. Qed.

Lemma be_val_from_acc l : forall acc,
  be_val_from acc l = acc * 256 ^ N.of_nat (length l) + be_val l.
Proof.
  unfold be_val. induction l; intros; cbn [be_val_from length].
  - cbn. lia.
  - rewrite IHl. rewrite (IHl (0 * 256 + a)).
    rewrite Nat2N.inj_succ, N.pow_succ_r by lia. nia.
Qed.

Lemma be_val_bytes k : forall n, be_val (be_bytes k n) = n mod 256 ^ N.of_nat k.
Proof.
  induction k; intros; cbn [be_bytes].
  - cbn. now rewrite N.mod_1_r.
  - unfold be_val in *. rewrite be_val_from_app, IHk. cbn [be_val_from].
    rewrite Nat2N.inj_succ, N.pow_succ_r by lia.
    rewrite (N.mod_mul_r n 256 (256 ^ N.of_nat k)); [lia|lia|].
    apply N.pow_nonzero. lia.
Qed.

Lemma be_val_lt l : bytes_ok l -> be_val l < 256 ^ N.of_nat (length l).
Proof.
  unfold be_val. induction l as [|b t] using rev_ind; intros H.
  - cbn. lia.
  - apply Forall_app in H as [H1 H2]. inversion H2; subst. unfold byte_ok in *.
    rewrite be_val_from_app, app_length. cbn [be_val_from length].
    rewrite Nat.add_1_r, Nat2N.inj_succ, N.pow_succ_r by lia. specialize (IHt H1). nia.
Qed.

Lemma be_bytes_val l : bytes_ok l -> be_bytes (length l) (be_val l) = l.
Proof.
  induction l as [|b t] using rev_ind; intros H; [easy|].
  apply Forall_app in H as [H1 H2]. inversion H2; subst. unfold byte_ok in *.
  rewrite app_length. cbn [length]. rewrite Nat.add_1_r. cbn [be_bytes].
  assert (E : be_val (t ++ [b]) = be_val t * 256 + b).
  { unfold be_val. now rewrite be_val_from_app. }
  rewrite E.
  replace ((be_val t * 256 + b) / 256) with (be_val t).
  2:{ symmetry. rewrite N.mul_comm. symmetry.
      apply N.div_unique with b; [lia|]. reflexivity. }
  replace ((be_val t * 256 + b) mod 256) with b.
  2:{ apply N.mod_unique with (be_val t); [lia|]. lia. }
  now rewrite IHt.
Qed.

Lemma be_bytes_inj k n m :
  n < 256 ^ N.of_nat k -> m < 256 ^ N.of_nat k -> be_bytes k n = be_bytes k m -> n = m.
Proof.
  intros Hn Hm H. apply (f_equal be_val) in H. rewrite !be_val_bytes in H.
  rewrite !N.mod_small in H; auto.
Qed.

Lemma take_app n a r : length a = n -> take n (a ++ r) = Some (a, r).
Proof.
  intros <-. unfold take. rewrite app_length.
  destruct (Nat.leb_spec (length a) (length a + length r)); [|lia].
  rewrite firstn_app, skipn_app, Nat.sub_diag, firstn_all, skipn_all. cbn.
  now rewrite app_nil_r.
Qed.

Lemma take_all n a : length a = n -> take n a = Some (a, []).
Proof. intros. rewrite <- (app_nil_r a) at 1. now apply take_app. Qed.

Lemma take_inv n i a r : take n i = Some (a, r) -> i = a ++ r /\ length a = n.
Proof.
  unfold take. destruct (Nat.leb_spec n (length i)); [|discriminate].
  intros H0. injection H0 as <- <-. split.
  - now rewrite firstn_skipn.
  - apply firstn_length_le. lia.
Qed.

Lemma be_uint_app k n r :
  n < 256 ^ N.of_nat k -> be_uint k (be_bytes k n ++ r) = Some (n, r).
Proof.
  intros. unfold be_uint. rewrite take_app by apply be_bytes_length.
  rewrite be_val_bytes, N.mod_small; auto.
Qed.

Lemma be_uint_app_mod k n r :
  be_uint k (be_bytes k n ++ r) = Some (n mod 256 ^ N.of_nat k, r).
Proof.
  intros. unfold be_uint. rewrite take_app by apply be_bytes_length.
  now rewrite be_val_bytes.
Qed.

Lemma be_uint1_cons b r : be_uint 1 (b :: r) = Some (b, r).
Proof. reflexivity. Qed.

Lemma be_uint_inv k i v r :
  be_uint k i = Some (v, r) -> bytes_ok i ->
  i = be_bytes k v ++ r /\ v < 256 ^ N.of_nat k /\ bytes_ok r.
Proof.
  unfold be_uint. destruct (take k i) as [[b r']|] eqn:E; [|discriminate].
  intros H Hi. injection H as <- <-. apply take_inv in E as [-> <-].
  apply Forall_app in Hi as [Hb Hr]. rewrite be_bytes_val by auto.
  split; [easy|]. split; auto. now apply be_val_lt.
Qed.

Lemma bind_inv {A B} (p : parser A) (f : A -> parser B) i x r :
  bind p f i = Some (x, r) -> exists a r', p i = Some (a, r') /\ f a r' = Some (x, r).
Proof.
  unfold bind. destruct (p i) as [[a r']|]; [|discriminate]. eauto.
Qed.

Lemma guard_inv b i x r : guard b i = Some (x, r) -> b = true /\ r = i.
Proof. unfold guard. destruct b; [|discriminate]. intros H. injection H as _ <-. auto. Qed.

Lemma ret_inv {A} (a : A) i x r : ret a i = Some (x, r) -> x = a /\ r = i.
Proof. unfold ret. intros H. now injection H as <- <-. Qed.

Lemma bytes_ok_app a b : bytes_ok (a ++ b) <-> bytes_ok a /\ bytes_ok b.
Proof. apply Forall_app. Qed.

Lemma many_app {A} (p : parser A) (ser : A -> list N) (ok : A -> Prop) :
  (forall x r, ok x -> p (ser x ++ r) = Some (x, r)) ->
  forall xs r, Forall ok xs ->
  many (length xs) p (flat_map ser xs ++ r) = Some (xs, r).
Proof.
  intros Hp. induction xs; intros r H; cbn [many length flat_map app].
  - reflexivity.
  - inversion H; subst. rewrite <- app_assoc. unfold bind. rewrite Hp by auto.
    rewrite IHxs by auto. reflexivity.
Qed.

Lemma many_inv {A} (p : parser A) (ser : A -> list N) (ok : A -> Prop) :
  (forall i x r, bytes_ok i -> p i = Some (x, r) -> i = ser x ++ r /\ ok x /\ bytes_ok r) ->
  forall n i xs r, bytes_ok i -> many n p i = Some (xs, r) ->
  i = flat_map ser xs ++ r /\ length xs = n /\ Forall ok xs /\ bytes_ok r.
Proof.
  intros Hp. induction n; intros i xs r Hi H; cbn [many] in H.
  - apply ret_inv in H as [-> ->]. repeat apply conj; auto.
  - apply bind_inv in H as (x & r1 & H1 & H). apply bind_inv in H as (ys & r2 & H2 & H).
    apply ret_inv in H as [-> ->].
    apply Hp in H1 as (-> & Hx & Hr1); auto. apply IHn in H2 as (-> & <- & Hys & Hr2); auto.
    cbn [flat_map length]. rewrite <- app_assoc. repeat apply conj; auto.
Qed.

(** A parser only ever consumes a prefix. *)
Definition consumes {A} (p : parser A) : Prop :=
  forall i x r, p i = Some (x, r) -> exists a, i = a ++ r.

Lemma take_consumes n : consumes (take n).
Proof. intros i x r H. apply take_inv in H as [-> _]. eauto. Qed.
Lemma be_uint_consumes k : consumes (be_uint k).
Proof.
  intros i x r. unfold be_uint. destruct (take k i) as [[b r']|] eqn:E; [|discriminate].
  intros H. injection H as _ <-. apply take_consumes in E. auto.
Qed.
Lemma ret_consumes {A} (a : A) : consumes (ret a).
Proof. intros i x r H. apply ret_inv in H as [_ ->]. now exists []. Qed.
Lemma bind_consumes {A B} (p : parser A) (f : A -> parser B) :
  consumes p -> (forall a, consumes (f a)) -> consumes (bind p f).
Proof.
  intros Hp Hf i x r H. apply bind_inv in H as (a & r' & H1 & H2).
  apply Hp in H1 as [c ->]. apply Hf in H2 as [d ->]. exists (c ++ d). now rewrite app_assoc.
Qed.

(** Equality of byte strings as a decision. *)
Definition beq (a b : list N) : bool := if list_eq_dec N.eq_dec a b then true else false.
Lemma beq_eq a b : beq a b = true <-> a = b.
Proof. unfold beq. destruct (list_eq_dec N.eq_dec a b); split; congruence. Qed.
Lemma beq_refl a : beq a a = true.
Proof. now apply beq_eq. Qed.

(** Fixed-width instances with literal bounds. *)
Lemma be1_app n r : n < 256 -> be_uint 1 (be_bytes 1 n ++ r) = Some (n, r).
Proof. intros. apply be_uint_app. change (256 ^ N.of_nat 1) with 256. lia. Qed.
Lemma be2_app n r : n < 65536 -> be_uint 2 (be_bytes 2 n ++ r) = Some (n, r).
Proof. intros. apply be_uint_app. change (256 ^ N.of_nat 2) with 65536. lia. Qed.
Lemma be4_app n r : n < 4294967296 -> be_uint 4 (be_bytes 4 n ++ r) = Some (n, r).
Proof. intros. apply be_uint_app. change (256 ^ N.of_nat 4) with 4294967296. lia. Qed.
Lemma be8_app n r : n < 18446744073709551616 -> be_uint 8 (be_bytes 8 n ++ r) = Some (n, r).
Proof. intros. apply be_uint_app. change (256 ^ N.of_nat 8) with 18446744073709551616. lia. Qed.
Lemma be2_app_mod n r : be_uint 2 (be_bytes 2 n ++ r) = Some (n mod 65536, r).
Proof. exact (be_uint_app_mod 2 n r). Qed.
Lemma be4_app_mod n r : be_uint 4 (be_bytes 4 n ++ r) = Some (n mod 4294967296, r).
Proof. exact (be_uint_app_mod 4 n r). Qed.

Lemma bind_step {A B} (p : parser A) (f : A -> parser B) i a r :
  p i = Some (a, r) -> bind p f i = f a r.
Proof. unfold bind. now intros ->. Qed.

Lemma guard_step {B} b (f : unit -> parser B) i : b = true -> bind (guard b) f i = f tt i.
Proof. now intros ->. Qed.

Lemma be_uint_short k i : (length i < k)%nat -> be_uint k i = None.
Proof.
  intros. unfold be_uint, take. destruct (Nat.leb_spec k (length i)); [lia|reflexivity].
Qed.
Lemma take_short k i : (length i < k)%nat -> take k i = None.
Proof. intros. unfold take. destruct (Nat.leb_spec k (length i)); [lia|reflexivity]. Qed.

(** One parsing step: [pstep tac], where [tac] shows what the first parser returns. *)
Ltac pstep tac := erewrite bind_step; [| tac ]; cbv beta.
Ltac pnum :=
  pstep ltac:(first [apply be1_app | apply be2_app | apply be4_app | apply be8_app]; lia).

Lemma be_uint_length k i v r : be_uint k i = Some (v, r) -> length i = (k + length r)%nat.
Proof.
  unfold be_uint. destruct (take k i) as [[b r']|] eqn:E; [|discriminate].
  intros H. apply take_inv in E as [-> <-].
  assert (r' = r) as -> by congruence. apply app_length.
Qed.

Lemma be_uint_split k i v r :
  be_uint k i = Some (v, r) ->
  exists a, length a = k /\ i = a ++ r /\ forall r', be_uint k (a ++ r') = Some (v, r').
Proof.
  unfold be_uint. destruct (take k i) as [[b q]|] eqn:E; [|discriminate].
  intros H. apply take_inv in E as [-> L].
  assert (be_val b = v) as <- by congruence. assert (q = r) as -> by congruence.
  exists b. repeat apply conj; auto. intros. now rewrite take_app.
Qed.

(** ** Parsers whose result does not depend on what follows the bytes they consume. *)
Definition extends {A} (p : parser A) : Prop :=
  forall i a r x, p i = Some (a, r) -> p (i ++ x) = Some (a, r ++ x).

Lemma take_extends n : extends (take n).
Proof.
  intros i a r x H. apply take_inv in H as [-> E]. rewrite <- app_assoc. now apply take_app.
Qed.
Lemma be_uint_extends k : extends (be_uint k).
Proof.
  intros i a r x H. unfold be_uint in *. destruct (take k i) as [[b r']|] eqn:E; [|discriminate].
  apply (take_extends _ _ _ _ x) in E. rewrite E. congruence.
Qed.
Lemma ret_extends {A} (a : A) : extends (ret a).
Proof. intros i b r x H. unfold ret in *. congruence. Qed.
Lemma fail_extends {A} : extends (@fail A).
Proof. intros i b r x H. discriminate. Qed.
Lemma guard_extends b : extends (guard b).
Proof. intros i a r x H. unfold guard in *. destruct b; congruence. Qed.
Lemma bind_extends {A B} (p : parser A) (f : A -> parser B) :
  extends p -> (forall a, extends (f a)) -> extends (bind p f).
Proof.
  intros Hp Hf i b r x H. unfold bind in *. destruct (p i) as [[a r']|] eqn:E; [|discriminate].
  rewrite (Hp _ _ _ x E). now apply Hf.
Qed.
Lemma many_extends {A} n (p : parser A) : extends p -> extends (many n p).
Proof.
  intros Hp. induction n; cbn [many]; [apply ret_extends|].
  apply bind_extends; [easy|]. intros a. apply bind_extends; [easy|]. intros. apply ret_extends.
Qed.

(** Such a parser rejects every proper prefix of anything it accepts entirely. *)
Lemma extends_truncation {A} (p : parser A) s a :
  extends p -> p s = Some (a, []) -> forall k, (k < length s)%nat -> p (firstn k s) = None.
Proof.
  intros Hp Hs k Hk. destruct (p (firstn k s)) as [[b r]|] eqn:E; [|easy].
  apply (Hp _ _ _ (skipn k s)) in E. rewrite firstn_skipn in E.
  assert (X : r ++ skipn k s = []) by congruence. apply app_eq_nil in X as [_ X].
  apply (f_equal (@length N)) in X. rewrite skipn_length in X. cbn in X. lia.
Qed.

Ltac pextends :=
  repeat first
    [ apply take_extends | apply be_uint_extends | apply ret_extends | apply guard_extends
    | apply fail_extends
    | (apply bind_extends; [|intro]) ].
