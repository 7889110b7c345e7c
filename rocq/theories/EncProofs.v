(** Proofs about EncModel.v. *)
From Coq Require Import List NArith Bool Arith Lia ZArith ZifyBool ZifyNat ZifyN.
From Verif Require Import ListUtil Bytes PrimModel PrimSpec PrimProofs EncModel.
Import ListNotations.
Open Scope N_scope.

(** ** Bits *)
Lemma bits_length w n : length (bits w n) = w.
Proof. induction w; cbn; auto. Qed.
Lemma val_from_bits w n : forall acc, val_from acc (bits w n) = acc * 2 ^ N.of_nat w + n mod 2 ^ N.of_nat w.
Proof.
  induction w; intros acc.
  - cbn [bits val_from]. change (2 ^ N.of_nat 0) with 1. rewrite N.mod_1_r. lia.
  - cbn [bits val_from]. rewrite IHw.
    replace (N.of_nat (S w)) with (N.succ (N.of_nat w)) by lia.
    set (m := N.of_nat w). rewrite N.pow_succ_r'.
    assert (Hm : 2 ^ m <> 0) by (apply N.pow_nonzero; lia).
    rewrite (N.mul_comm 2 (2 ^ m)). rewrite N.mod_mul_r by (exact Hm || lia).
    rewrite N.testbit_eqb.
    assert (B : (n / 2 ^ m) mod 2 = 0 \/ (n / 2 ^ m) mod 2 = 1).
    { assert ((n / 2 ^ m) mod 2 < 2) by (apply N.mod_lt; discriminate).
      destruct ((n / 2 ^ m) mod 2) as [|[p|p|]]; auto; lia. }
    clearbody m. generalize dependent (2 ^ m). intros q Hq [-> | ->]; cbn [N.eqb Pos.eqb]; lia.
Qed.
Lemma val_bits w n : n < 2 ^ N.of_nat w -> val (bits w n) = n.
Proof. intros H. unfold val. rewrite val_from_bits, N.mod_small by exact H. lia. Qed.

Lemma val_from_app a : forall acc b, val_from acc (a ++ b) = val_from (val_from acc a) b.
Proof. induction a; intros; cbn; auto. Qed.
Lemma val_from_acc l : forall acc, val_from acc l = acc * 2 ^ N.of_nat (length l) + val l.
Proof.
  induction l as [|b l]; intros acc.
  - cbn [val_from length]. unfold val. cbn. lia.
  - unfold val. cbn [val_from length].
    rewrite (IHl (2 * acc + (if b then 1 else 0))), (IHl (2 * 0 + (if b then 1 else 0))).
    unfold val. rewrite Nat2N.inj_succ, N.pow_succ_r'. lia.
Qed.
Lemma val_lt l : val l < 2 ^ N.of_nat (length l).
Proof.
  induction l as [|b l]; [cbn; lia|].
  unfold val. cbn [val_from length]. rewrite val_from_acc.
  rewrite Nat2N.inj_succ, N.pow_succ_r'. destruct b; lia.
Qed.
Lemma bits_small_add w n m k : n = m + k * 2 ^ N.of_nat w -> bits w n = bits w m.
Proof.
  revert n m k. induction w; intros n m k ->; [reflexivity|]. cbn [bits]. f_equal.
  - rewrite !N.testbit_eqb. replace (N.of_nat (S w)) with (N.succ (N.of_nat w)) by lia.
    rewrite N.pow_succ_r'.
    replace (m + k * (2 * 2 ^ N.of_nat w)) with (m + (2 * k) * 2 ^ N.of_nat w) by lia.
    rewrite N.div_add by (apply N.pow_nonzero; lia).
    rewrite (N.mul_comm 2 k), N.mod_add by lia. reflexivity.
  - apply (IHw _ _ (2 * k)).
    replace (N.of_nat (S w)) with (N.succ (N.of_nat w)) by lia. rewrite N.pow_succ_r'. lia.
Qed.
Lemma bits_val l : bits (length l) (val l) = l.
Proof.
  induction l as [|b l]; [reflexivity|]. cbn [length bits].
  assert (V : val (b :: l) = (if b then 1 else 0) * 2 ^ N.of_nat (length l) + val l).
  { unfold val at 1. cbn [val_from]. rewrite val_from_acc. destruct b; lia. }
  pose proof (val_lt l) as L. f_equal.
  - rewrite V, N.testbit_eqb. rewrite N.div_add_l by (apply N.pow_nonzero; lia).
    rewrite N.div_small by exact L. destruct b; reflexivity.
  - rewrite V. transitivity (bits (length l) (val l)); [|exact IHl].
    apply (bits_small_add _ _ _ (if b then 1 else 0)). lia.
Qed.

(** ** Groups *)
Lemma groups_nil f k : groups f k [] = [].
Proof. destruct f; reflexivity. Qed.
Lemma groups_fuel k : (0 < k)%nat -> forall f g l,
  (length l <= f)%nat -> (length l <= g)%nat -> groups f k l = groups g k l.
Proof.
  intros Hk f. induction f; intros g l Hf Hg.
  - destruct l; [now rewrite !groups_nil|cbn in Hf; lia].
  - destruct l as [|b l]; [now rewrite !groups_nil|]. destruct g; [cbn in Hg; lia|].
    cbn [groups]. f_equal. apply IHf; rewrite skipn_length; cbn [length] in *; lia.
Qed.
Definition G (k : nat) (l : list bool) : list N := groups (length l) k l.
Lemma G_cons k a l : (0 < k)%nat -> length a = k -> G k (a ++ l) = val a :: G k l.
Proof.
  intros Hk La. unfold G.
  assert (exists x r, a ++ l = x :: r) as (x & r & E).
  { destruct a; [cbn in La; lia|]. cbn. eauto. }
  rewrite E. cbn [length groups]. rewrite <- E.
  f_equal.
  - f_equal. rewrite <- app_assoc, <- La. apply firstn_exact.
  - rewrite <- La at 2. rewrite skipn_exact. apply groups_fuel; auto; try lia.
    assert (length (a ++ l) = S (length r)) by (rewrite E; reflexivity).
    rewrite app_length in *. lia.
Qed.
Lemma G_short k l : (0 < length l < k)%nat ->
  G k l = [val (l ++ repeat false (k - length l))].
Proof.
  intros H. unfold G. destruct l as [|x r]; [cbn in H; lia|].
  set (l := x :: r) in *. assert (length l = S (length r)) as -> by reflexivity.
  cbn [groups]. fold l. rewrite firstn_all2.
  2: { rewrite app_length, repeat_length. cbn [length] in *. lia. }
  rewrite skipn_all2 by lia. now rewrite groups_nil.
Qed.
(** Groups of bits of [s], cut off by less than a group's worth of zeros, are [s]. *)
Lemma G_back k s : (0 < k)%nat -> Forall (fun x => x < 2 ^ N.of_nat k) s ->
  forall x t, (t < k)%nat -> x ++ repeat false t = flat_map (bits k) s -> G k x = s.
Proof.
  intros Hk. induction s as [|c s]; intros Hs x t Ht E.
  - cbn in E. destruct x; [reflexivity|discriminate].
  - inversion Hs as [|? ? Hc Hs']; subst. cbn [flat_map] in E.
    assert (Lb := bits_length k c).
    assert (LE : length (x ++ repeat false t) = length (bits k c ++ flat_map (bits k) s))
      by now rewrite E.
    rewrite !app_length, repeat_length, Lb in LE.
    destruct (Nat.le_gt_cases k (length x)) as [Hx|Hx].
    + assert (firstn k x = bits k c) as F.
      { apply (f_equal (firstn k)) in E. rewrite firstn_app in E.
        replace (k - length x)%nat with O in E by lia. cbn [firstn] in E.
        rewrite app_nil_r in E. rewrite E. rewrite <- Lb at 1. apply firstn_exact. }
      assert (skipn k x ++ repeat false t = flat_map (bits k) s) as Sk.
      { apply (f_equal (skipn k)) in E. rewrite skipn_app in E.
        replace (k - length x)%nat with O in E by lia. cbn [skipn] in E. rewrite E.
        rewrite <- Lb at 1. apply skipn_exact. }
      rewrite <- (firstn_skipn k x), G_cons by (rewrite ?firstn_length; lia).
      rewrite F, val_bits by exact Hc. f_equal. now apply (IHs Hs' _ t).
    + assert (flat_map (bits k) s = []) as N0.
      { destruct s as [|d s]; [reflexivity|]. cbn [flat_map] in LE.
        rewrite app_length, bits_length in LE. lia. }
      rewrite N0, app_nil_r in E. assert (s = []) as ->.
      { destruct s as [|d s]; [reflexivity|]. cbn [flat_map] in N0.
        apply (f_equal (@length bool)) in N0. rewrite app_length, bits_length in N0. cbn in N0. lia. }
      assert (t = k - length x)%nat as T by (rewrite N0 in LE; cbn in LE; lia).
      rewrite G_short by lia. rewrite <- T, E, val_bits by exact Hc. reflexivity.
Qed.
Lemma G_spec k : (0 < k)%nat -> forall n x, (length x <= n)%nat ->
  exists t, (t < k)%nat /\ x ++ repeat false t = flat_map (bits k) (G k x) /\
    Forall (fun v => v < 2 ^ N.of_nat k) (G k x).
Proof.
  intros Hk. induction n; intros x Hx.
  - destruct x; [|cbn in Hx; lia]. exists O. repeat apply conj; [lia|reflexivity|constructor].
  - destruct (Nat.le_gt_cases k (length x)) as [H|H].
    + destruct (IHn (skipn k x)) as (t & Ht & E & F).
      { rewrite skipn_length. lia. }
      exists t.
      assert (Lf : length (firstn k x) = k) by (rewrite firstn_length; lia).
      assert (GE : G k x = val (firstn k x) :: G k (skipn k x)).
      { rewrite <- G_cons by auto. now rewrite firstn_skipn. }
      rewrite GE. repeat apply conj; auto.
      * cbn [flat_map]. rewrite <- E.
        assert (bits k (val (firstn k x)) = firstn k x) as ->.
        { rewrite <- Lf at 1. apply bits_val. }
        now rewrite app_assoc, firstn_skipn.
      * constructor; [|exact F]. pose proof (val_lt (firstn k x)). now rewrite Lf in *.
    + destruct x as [|b x].
      { exists O. repeat apply conj; [lia|reflexivity|constructor]. }
      assert (Hl : (0 < length (b :: x))%nat) by (cbn [length]; lia).
      set (l := b :: x) in *. exists (k - length l)%nat.
      rewrite G_short by lia.
      assert (L : length (l ++ repeat false (k - length l)) = k)
        by (rewrite app_length, repeat_length; lia).
      repeat apply conj.
      * lia.
      * cbn [flat_map]. rewrite app_nil_r. symmetry. rewrite <- L at 1. apply bits_val.
      * repeat constructor. pose proof (val_lt (l ++ repeat false (k - length l))) as V.
        now rewrite L in V.
Qed.

Lemma flat_bits_length k s : length (flat_map (bits k) s) = (k * length s)%nat.
Proof. induction s; cbn [flat_map length]; [lia|]. rewrite app_length, bits_length, IHs. lia. Qed.
Lemma bytes_256 l : bytes_ok l -> Forall (fun v => v < 2 ^ N.of_nat 8) l.
Proof. intros H. eapply Forall_impl; [|exact H]. intros a Ha. exact Ha. Qed.

Lemma radix_round k l : (0 < k <= 8)%nat -> bytes_ok l ->
  radix_decode k (radix_encode k l) = Some l /\
  Forall (fun v => v < 2 ^ N.of_nat k) (radix_encode k l).
Proof.
  intros Hk Hl. unfold radix_encode.
  set (x := flat_map (bits 8) l). fold (G k x).
  destruct (G_spec k ltac:(lia) (length x) x (le_n _)) as (t & Ht & E & F).
  split; [|exact F].
  unfold radix_decode. rewrite <- E.
  assert (Lx : length x = (8 * length l)%nat) by apply flat_bits_length.
  assert (D : (length (x ++ repeat false t) / 8 = length l)%nat).
  { rewrite app_length, repeat_length, Lx. symmetry. apply (Nat.div_unique _ _ _ t); lia. }
  assert (M : (length (x ++ repeat false t) mod 8 = t)%nat).
  { rewrite app_length, repeat_length, Lx. symmetry. apply (Nat.mod_unique _ _ (length l)); lia. }
  rewrite D, M. replace (t <? k)%nat with true by lia. cbn [andb].
  rewrite <- Lx. rewrite skipn_exact.
  assert (Z : forallb negb (repeat false t) = true) by (clear; induction t; cbn; auto).
  rewrite Z, firstn_exact. f_equal.
  rewrite (groups_fuel 8 ltac:(lia) _ (length x)) by (rewrite ?app_length; lia).
  fold (G 8 x). apply (G_back 8 l ltac:(lia) (bytes_256 _ Hl) x 0); [lia|].
  cbn [repeat]. now rewrite app_nil_r.
Qed.

Lemma radix_canonical k s l : (0 < k <= 8)%nat -> Forall (fun v => v < 2 ^ N.of_nat k) s ->
  radix_decode k s = Some l -> radix_encode k l = s /\ bytes_ok l.
Proof.
  intros Hk Hs. unfold radix_decode. set (b := flat_map (bits k) s).
  set (whole := (8 * (length b / 8))%nat).
  destruct (Nat.ltb_spec (length b mod 8) k) as [Ht|]; [|discriminate]. cbn [andb].
  destruct (forallb negb (skipn whole b)) eqn:Z; [|discriminate].
  assert (DM := Nat.div_mod (length b) 8 ltac:(lia)).
  set (x := firstn whole b).
  assert (Lx : length x = whole) by (unfold x; rewrite firstn_length; lia).
  intros H. assert (G 8 x = l) as E.
  { assert (groups (length b) 8 x = l) by congruence.
    rewrite <- H0. apply groups_fuel; lia. }
  destruct (G_spec 8 ltac:(lia) (length x) x (le_n _)) as (t & T & Ex & Fx).
  rewrite E in Ex, Fx.
  assert (t = O) as ->.
  { apply (f_equal (@length bool)) in Ex. rewrite app_length, repeat_length, flat_bits_length in Ex.
    lia. }
  cbn [repeat] in Ex. rewrite app_nil_r in Ex.
  split; [|exact Fx].
  unfold radix_encode. rewrite <- Ex. fold (G k x).
  assert (Sk : skipn whole b = repeat false (length b mod 8)).
  { assert (L : length (skipn whole b) = (length b mod 8)%nat) by (rewrite skipn_length; lia).
    rewrite <- L. clear - Z. induction (skipn whole b) as [|c r]; [reflexivity|].
    cbn [forallb length repeat] in *. apply andb_prop in Z as [Z1 Z2].
    destruct c; [discriminate|]. f_equal. auto. }
  apply (G_back k s ltac:(lia) Hs x (length b mod 8) Ht).
  rewrite <- Sk. unfold x. apply firstn_skipn.
Qed.

(** ** Symbols *)
Lemma index_sym alpha k :
  forallb (fun v => match index_of alpha (sym alpha (N.of_nat v)) with
                    | Some u => u =? N.of_nat v | None => false end) (seq 0 k) = true ->
  forall v, v < N.of_nat k -> index_of alpha (sym alpha v) = Some v.
Proof.
  intros H v Hv. rewrite forallb_forall in H.
  specialize (H (N.to_nat v)). rewrite in_seq in H. specialize (H ltac:(lia)).
  rewrite N2Nat.id in H. destruct (index_of _ _); [|discriminate]. f_equal. lia.
Qed.
Lemma index_sym64 v : v < 2 ^ N.of_nat 6 -> index_of alpha64 (sym alpha64 v) = Some v.
Proof. intros H. apply (index_sym alpha64 64); [vm_compute; reflexivity|exact H]. Qed.
Lemma index_sym32 v : v < 2 ^ N.of_nat 5 -> index_of alpha32 (sym alpha32 v) = Some v.
Proof. intros H. apply (index_sym alpha32 32); [vm_compute; reflexivity|exact H]. Qed.
Lemma map_index alpha B (Hx : forall v, v < B -> index_of alpha (sym alpha v) = Some v) l :
  Forall (fun v => v < B) l -> map_opt (index_of alpha) (map (sym alpha) l) = Some l.
Proof.
  induction 1 as [|x l Hl F IH]; [reflexivity|]. cbn [map map_opt]. now rewrite Hx, IH.
Qed.
Lemma index_inv alpha c v : index_of alpha c = Some v ->
  sym alpha v = c /\ v < N.of_nat (length alpha).
Proof.
  revert v. induction alpha as [|x t IH]; intros v H; [discriminate|]. cbn [index_of] in H.
  destruct (N.eqb_spec x c).
  - assert (v = 0) as -> by congruence. cbn [length]. split; [exact e|lia].
  - destruct (index_of t c) as [u|]; [|discriminate]. cbn [option_map] in H.
    assert (v = N.succ u) as -> by congruence. destruct (IH u eq_refl) as [A B].
    cbn [length]. split; [|lia]. unfold sym in *. rewrite N2Nat.inj_succ. exact A.
Qed.
Lemma map_index_inv alpha s v : map_opt (index_of alpha) s = Some v ->
  map (sym alpha) v = s /\ Forall (fun x => x < N.of_nat (length alpha)) v.
Proof.
  revert v. induction s as [|c s IH]; intros v H; cbn [map_opt] in H.
  - assert (v = []) as -> by congruence. auto.
  - destruct (index_of alpha c) as [u|] eqn:E; [|discriminate].
    destruct (map_opt _ s) as [r|]; [|discriminate].
    assert (v = u :: r) as -> by congruence. apply index_inv in E as [A B].
    destruct (IH r eq_refl) as [C D]. cbn [map]. rewrite A, C. auto.
Qed.

Lemma base32_round l : bytes_ok l -> base32_decode (base32_encode l) = Some l.
Proof.
  intros H. destruct (radix_round 5 l ltac:(lia) H) as [A B].
  unfold base32_decode, base32_encode. now rewrite (map_index alpha32 _ index_sym32 _ B).
Qed.
Lemma base32_canonical s l : base32_decode s = Some l -> base32_encode l = s /\ bytes_ok l.
Proof.
  unfold base32_decode. destruct (map_opt _ s) as [v|] eqn:E; [|discriminate]. intros H.
  apply map_index_inv in E as [<- F].
  destruct (radix_canonical 5 v l ltac:(lia) F H) as [A B].
  unfold base32_encode. now rewrite A.
Qed.

(** ** Base64 *)
Lemma radix6_app a l : length a = 3%nat -> radix_encode 6 (a ++ l) = radix_encode 6 a ++ radix_encode 6 l.
Proof.
  intros La. unfold radix_encode. fold (G 6 (flat_map (bits 8) (a ++ l))).
  fold (G 6 (flat_map (bits 8) a)). fold (G 6 (flat_map (bits 8) l)).
  rewrite flat_map_app. set (x := flat_map (bits 8) a). set (y := flat_map (bits 8) l).
  assert (Lx : length x = 24%nat) by (unfold x; rewrite flat_bits_length; lia).
  assert (X : forall n z, length z = (6 * n)%nat -> G 6 (z ++ y) = G 6 z ++ G 6 y).
  { induction n; intros z Hz.
    - destruct z; [reflexivity|discriminate].
    - rewrite <- (firstn_skipn 6 z), <- app_assoc.
      rewrite (G_cons 6 (firstn 6 z) (skipn 6 z ++ y)) by (rewrite ?firstn_length; lia).
      rewrite (G_cons 6 (firstn 6 z) (skipn 6 z)) by (rewrite ?firstn_length; lia).
      cbn [app]. f_equal. apply IHn. rewrite skipn_length. lia. }
  apply (X 4%nat). exact Lx.
Qed.
Lemma radix_length k l : (0 < k)%nat ->
  exists t, (t < k)%nat /\ (8 * length l + t = k * length (radix_encode k l))%nat.
Proof.
  intros Hk. unfold radix_encode. set (x := flat_map (bits 8) l). fold (G k x).
  destruct (G_spec k Hk (length x) x (le_n _)) as (t & Ht & E & _).
  exists t. split; [exact Ht|]. apply (f_equal (@length bool)) in E.
  rewrite app_length, repeat_length, flat_bits_length in E. unfold x in *.
  rewrite flat_bits_length in E. lia.
Qed.

Lemma pad_not_symbol v : v < 2 ^ N.of_nat 6 -> (sym alpha64 v =? pad) = false.
Proof.
  intros H. destruct (N.eqb_spec (sym alpha64 v) pad) as [E|]; [|reflexivity].
  pose proof (index_sym64 v H) as X. rewrite E in X. vm_compute in X. discriminate.
Qed.
Lemma block_short l : bytes_ok l -> (1 <= length l <= 3)%nat ->
  exists x y z w, base64_encode l = [x; y; z; w] /\ decode_block [x; y; z; w] = Some l.
Proof.
  intros Hl Ll. destruct (radix_length 6 l ltac:(lia)) as (t & Ht & E).
  destruct (radix_round 6 l ltac:(lia) Hl) as [A B].
  pose proof (map_index alpha64 _ index_sym64 _ B) as M.
  unfold base64_encode, decode_block. 
  assert (P : Forall (fun c => (c =? pad) = false) (map (sym alpha64) (radix_encode 6 l))).
  { apply Forall_forall. intros c Hc. apply in_map_iff in Hc as (v & <- & Hv).
    apply pad_not_symbol. rewrite Forall_forall in B. auto. }
  assert (L : length (map (sym alpha64) (radix_encode 6 l)) = length (radix_encode 6 l))
    by apply map_length.
  set (s := map (sym alpha64) (radix_encode 6 l)) in *.
  assert (length s = 2 \/ length s = 3 \/ length s = 4)%nat as [H|[H|H]] by lia;
  repeat (destruct s as [|? s]; cbn [length] in H; try lia);
  repeat match goal with X : Forall _ (_ :: _) |- _ => inversion X; clear X; subst end;
  cbn [length Nat.modulo Nat.divmod Nat.sub fst snd repeat app];
  do 4 eexists; (split; [reflexivity|]); cbn [strip_pad];
  rewrite ?N.eqb_refl;
  repeat match goal with X : (_ =? pad) = false |- _ => rewrite ?X; clear X end;
  cbn [length Nat.ltb Nat.leb]; rewrite M; exact A.
Qed.
Lemma base64_app a l : length a = 3%nat ->
  base64_encode (a ++ l) = map (sym alpha64) (radix_encode 6 a) ++ base64_encode l.
Proof.
  intros La. unfold base64_encode. rewrite radix6_app by exact La. rewrite map_app.
  destruct (radix_length 6 a ltac:(lia)) as (t & Ht & E).
  assert (L4 : length (map (sym alpha64) (radix_encode 6 a)) = 4%nat) by (rewrite map_length; lia).
  rewrite <- app_assoc. do 3 f_equal. rewrite app_length, L4.
  assert (((4 + length (map (sym alpha64) (radix_encode 6 l))) mod 4)%nat =
          (length (map (sym alpha64) (radix_encode 6 l)) mod 4)%nat) as ->; [|reflexivity].
  replace (4 + length (map (sym alpha64) (radix_encode 6 l)))%nat with
    (length (map (sym alpha64) (radix_encode 6 l)) + 1 * 4)%nat by lia.
  apply Nat.mod_add. lia.
Qed.
Lemma base64_3 a : length a = 3%nat -> base64_encode a = map (sym alpha64) (radix_encode 6 a).
Proof.
  intros La. rewrite <- (app_nil_r a) at 1. rewrite base64_app by exact La. apply app_nil_r.
Qed.
Lemma base64_fuel n : forall l f, (length l <= n)%nat -> bytes_ok l ->
  (length (base64_encode l) <= f)%nat ->
  base64_decode_fuel f (base64_encode l) = Some l.
Proof.
  induction n; intros l f Hn Hl Hf.
  - destruct l; [|cbn in Hn; lia]. destruct f; reflexivity.
  - destruct (Nat.le_gt_cases (length l) 3) as [H|H].
    + destruct l as [|b l]; [destruct f; reflexivity|].
      destruct (block_short (b :: l) Hl ltac:(cbn [length] in *; lia)) as (x & y & z & w & E & D).
      rewrite E in *. destruct f as [|f]; [cbn in Hf; lia|].
      cbn [base64_decode_fuel]. rewrite D. destruct f; cbn [base64_decode_fuel];
        now rewrite app_nil_r.
    + assert (exists a r, l = a ++ r /\ length a = 3%nat) as (a & r & -> & La).
      { exists (firstn 3 l), (skipn 3 l). rewrite firstn_skipn, firstn_length. split; lia || auto. }
      apply bytes_ok_app in Hl as [Ha Hr].
      rewrite base64_app in * by exact La.
      destruct (block_short a Ha ltac:(lia)) as (x & y & z & w & E & D).
      rewrite base64_3 in E by exact La. rewrite E in *.
      cbn [app length] in *. destruct f as [|f]; [lia|].
      cbn [base64_decode_fuel]. rewrite D, IHn; auto; try lia.
      rewrite app_length in Hn. lia.
Qed.
Lemma base64_round l : bytes_ok l -> base64_decode (base64_encode l) = Some l.
Proof. intros H. unfold base64_decode. now apply (base64_fuel (length l)). Qed.

Lemma sym64_in v : v < 2 ^ N.of_nat 6 -> In (sym alpha64 v) alpha64.
Proof.
  intros H. unfold sym. apply nth_In. change (length alpha64) with 64%nat.
  change (2 ^ N.of_nat 6) with 64 in H. lia.
Qed.
Lemma base64_chars l c : bytes_ok l -> In c (base64_encode l) -> In c alpha64 \/ c = pad.
Proof.
  intros Hl H. unfold base64_encode in H. apply in_app_or in H as [H|H].
  - left. apply in_map_iff in H as (v & <- & Hv).
    destruct (radix_round 6 l ltac:(lia) Hl) as [_ B]. rewrite Forall_forall in B.
    apply sym64_in. auto.
  - right. now apply repeat_spec in H.
Qed.
Lemma base64_no_char c l : (c =? pad) = false -> existsb (N.eqb c) alpha64 = false ->
  bytes_ok l -> ~ In c (base64_encode l).
Proof.
  intros Hp Ha Hl H. apply base64_chars in H as [H|H]; auto.
  - rewrite <- not_true_iff_false in Ha. apply Ha. apply existsb_exists. exists c.
    split; [exact H|apply N.eqb_refl].
  - subst. now rewrite N.eqb_refl in Hp.
Qed.

(** ** Ranges *)
Lemma set_range_length a new l : (a + length new <= length l)%nat ->
  length (set_range a new l) = length l.
Proof. intros H. unfold set_range. rewrite !app_length, firstn_length, skipn_length. lia. Qed.
Lemma set_range_nth a new l i d : (a + length new <= length l)%nat ->
  nth i (set_range a new l) d =
  if ((a <=? i) && (i <? a + length new))%nat then nth (i - a) new d else nth i l d.
Proof.
  intros H. unfold set_range.
  assert (La : length (firstn a l) = a) by (rewrite firstn_length; lia).
  destruct (Nat.leb_spec a i) as [H1|H1]; cbn [andb].
  - rewrite app_nth2 by lia. rewrite La. destruct (Nat.ltb_spec i (a + length new)) as [H2|H2].
    + apply app_nth1. lia.
    + rewrite app_nth2 by lia. rewrite <- (firstn_skipn (a + length new) l) at 2.
      rewrite app_nth2 by (rewrite firstn_length; lia).
      rewrite firstn_length. f_equal. lia.
  - rewrite app_nth1 by lia. rewrite <- (firstn_skipn a l) at 2. rewrite app_nth1 by lia.
    reflexivity.
Qed.
Lemma two_at a l : (a + 2 <= length l)%nat ->
  firstn 2 (skipn a l) = [nth a l 0; nth (a + 1) l 0].
Proof.
  intros H. rewrite <- (firstn_skipn a l) at 2 3.
  assert (La : length (firstn a l) = a) by (rewrite firstn_length; lia).
  rewrite !app_nth2 by lia. rewrite La, Nat.sub_diag.
  replace (a + 1 - a)%nat with 1%nat by lia.
  assert (L : (2 <= length (skipn a l))%nat) by (rewrite skipn_length; lia).
  destruct (skipn a l) as [|x [|y r]]; cbn in L |- *; try lia. reflexivity.
Qed.
Lemma protocol_round p : protocol_of (protocol_u8 p) = Some p.
Proof. destruct p; reflexivity. Qed.

(** ** Decimal *)
Lemma dec_digits_app max a : forall b acc x, dec_digits max acc a = Some x ->
  dec_digits max acc (a ++ b) = dec_digits max x b.
Proof.
  induction a as [|c a IH]; intros b acc x H; cbn [dec_digits app] in *.
  - congruence.
  - destruct (rng _ _ _); [|discriminate]. destruct (_ <? _); [discriminate|].
    now apply IH.
Qed.
Lemma show_dec_parse f : forall n max acc, (n < 10 ^ N.of_nat f)%N -> n <= max -> (0 < f)%nat ->
  forall r, dec_digits max n acc = Some r -> dec_digits max 0 (show_dec_fuel f n acc) = Some r.
Proof.
  induction f; intros n max acc Hn Hm Hf r H; [lia|].
  cbn [show_dec_fuel].
  assert (D := N.div_mod n 10 ltac:(lia)).
  assert (M : n mod 10 < 10) by (apply N.mod_lt; lia).
  assert (Step : dec_digits max (n / 10) ((48 + n mod 10) :: acc) = Some r).
  { cbn [dec_digits].
    replace (rng 48 57 (48 + n mod 10)) with true by (unfold rng; lia).
    replace (n / 10 * 10 + (48 + n mod 10 - 48)) with n by lia.
    replace (max <? n) with false by lia. exact H. }
  destruct (N.eqb_spec (n / 10) 0) as [E|E].
  - rewrite E in Step. exact Step.
  - apply IHf; auto; try lia.
    + rewrite Nat2N.inj_succ, N.pow_succ_r' in Hn. apply N.div_lt_upper_bound; lia.
    + destruct f; [|lia]. cbn in Hn. apply N.div_small_iff in Hn; lia.
Qed.
