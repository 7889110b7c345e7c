(** The reassembly invariant. *)
From Coq Require Import List NArith Bool Arith Lia ZArith ZifyBool ZifyNat ZifyN Permutation.
From Verif Require Import ListUtil Bytes NMap PrimModel EncModel I2npModel I2npSpec I2npProofs
  TunnelModel TunnelSpec TunnelProofs.
Import ListNotations.
Open Scope N_scope.

(** ** Sets of arrived fragments *)
Lemma has_cons_same j i k seen : has (j, k) ((j, i) :: seen) = (k =? i)%nat || has (j, k) seen.
Proof. cbn [has existsb fst snd]. now rewrite Nat.eqb_refl. Qed.
Lemma has_cons_other j j' i k seen : j' <> j -> has (j', k) ((j, i) :: seen) = has (j', k) seen.
Proof. intros H. cbn [has existsb fst snd]. destruct (Nat.eqb_spec j' j); [easy|reflexivity]. Qed.
Lemma has_filter_same j k seen : has (j, k) (filter (fun y => negb (fst y =? j)%nat) seen) = false.
Proof.
  unfold has. cbn [fst snd]. induction seen as [|[a b] seen IH]; [reflexivity|]. cbn [filter fst].
  destruct (Nat.eqb_spec a j); cbn [negb]; [exact IH|]. cbn [existsb fst snd]. rewrite IH.
  destruct (Nat.eqb_spec j a); [congruence|reflexivity].
Qed.
Lemma has_filter_other j j' k seen : j' <> j ->
  has (j', k) (filter (fun y => negb (fst y =? j)%nat) seen) = has (j', k) seen.
Proof.
  intros H. unfold has. cbn [fst snd]. induction seen as [|[a b] seen IH]; [reflexivity|]. cbn [filter fst].
  destruct (Nat.eqb_spec a j); cbn [negb].
  - cbn [existsb fst snd]. rewrite IH. destruct (Nat.eqb_spec j' a); [congruence|reflexivity].
  - cbn [existsb fst snd]. now rewrite IH.
Qed.
Lemma has_In x seen : has x seen = true <-> In x seen.
Proof.
  unfold has. rewrite existsb_exists. split.
  - intros ([a b] & Hi & H). destruct x as [c d]. cbn [fst snd] in H.
    apply andb_true_iff in H as [H1 H2]. apply Nat.eqb_eq in H1, H2. now subst.
  - intros H. exists x. split; [exact H|]. now rewrite !Nat.eqb_refl.
Qed.
Lemma all_here_In c j seen : all_here c j seen = true <-> forall i, (i < c)%nat -> In (j, i) seen.
Proof.
  unfold all_here. rewrite forallb_forall. split; intros H i Hi.
  - apply has_In, H, in_seq. lia.
  - apply has_In, H. apply in_seq in Hi. lia.
Qed.

(** ** The follow-on fragments collected so far *)
Definition have (p : nat -> bool) (g : nat -> bytes) (a n : nat) : nmap bytes :=
  map (fun i => (N.of_nat i, g i)) (filter p (seq a n)).

Lemma nput_below (k : N) (v : bytes) m : Forall (fun x => k < fst x) m -> nput k v m = (k, v) :: m.
Proof.
  destruct m as [|[k' v'] m]; intros H; [reflexivity|]. inversion H; subst. cbn [fst] in *.
  cbn [nput]. destruct (N.ltb_spec k k'); [reflexivity|lia].
Qed.
Lemma have_above p g a n k : (k < a)%nat -> Forall (fun x : N * bytes => N.of_nat k < fst x) (have p g a n).
Proof.
  intros H. apply Forall_forall. intros x Hx. unfold have in Hx. apply in_map_iff in Hx as (i & <- & Hi).
  apply filter_In in Hi as [Hi _]. apply in_seq in Hi. cbn [fst]. lia.
Qed.
Lemma filter_ext_seq (p q : nat -> bool) a n :
  (forall i, (a <= i < a + n)%nat -> p i = q i) -> filter p (seq a n) = filter q (seq a n).
Proof.
  revert a. induction n; intros a H; [reflexivity|]. cbn [seq filter].
  rewrite (H a) by lia. rewrite (IHn (S a)) by (intros; apply H; lia). reflexivity.
Qed.
Lemma have_nput p g i n : forall a, (a <= i < a + n)%nat ->
  nput (N.of_nat i) (g i) (have p g a n) = have (fun k => (k =? i)%nat || p k) g a n.
Proof.
  induction n; intros a H; [lia|]. unfold have in *. cbn [seq filter].
  destruct (Nat.eqb_spec a i) as [->|Hne]; cbn [orb].
  - cbn [map].
    replace (filter (fun k => (k =? i)%nat || p k) (seq (S i) n)) with (filter p (seq (S i) n)).
    2:{ apply filter_ext_seq. intros k Hk. destruct (Nat.eqb_spec k i); [lia|reflexivity]. }
    destruct (p i); cbn [map].
    + cbn [nput]. rewrite N.ltb_irrefl, N.eqb_refl. reflexivity.
    + apply nput_below. apply (have_above p g (S i) n i). lia.
  - destruct (p a); cbn [map].
    + cbn [nput]. destruct (N.ltb_spec (N.of_nat i) (N.of_nat a)); [lia|].
      destruct (N.eqb_spec (N.of_nat i) (N.of_nat a)); [lia|]. f_equal. apply IHn. lia.
    + apply IHn. lia.
Qed.
Lemma filter_seq_le p : forall n a, (length (filter p (seq a n)) <= n)%nat.
Proof. induction n; intros; cbn [seq filter]; [cbn; lia|]. destruct (p a); cbn [length]; specialize (IHn (S a)); lia. Qed.
Lemma filter_seq_full p : forall n a,
  (length (filter p (seq a n)) =? n)%nat = forallb p (seq a n).
Proof.
  induction n; intros; cbn [seq filter forallb]; [reflexivity|].
  destruct (p a); cbn [length andb].
  - rewrite <- IHn. reflexivity.
  - apply Nat.eqb_neq. pose proof (filter_seq_le p n (S a)). lia.
Qed.
Lemma filter_seq_all p : forall n a, forallb p (seq a n) = true -> filter p (seq a n) = seq a n.
Proof.
  induction n; intros a H; [reflexivity|]. cbn [seq filter forallb] in *.
  apply andb_true_iff in H as [-> H]. now rewrite IHn.
Qed.

(** ** The blocks of one message *)
Section Sent.
Variable e : ext.
Hypothesis Hsha : forall b, (4 <= length (sha256 e b))%nat.

Definition body (s : sent) : bytes := build_standard e (s_msg s).
Definition fragmented (s : sent) : bool := negb (length (body s) <=? 1001 - delivery_len (s_to s))%nat.
Definition head_len (s : sent) : nat := (1001 - delivery_len (s_to s) - 4)%nat.
Definition tails (s : sent) : list bytes := chunks 996 (skipn (head_len s) (body s)).
Definition blk (s : sent) (i : nat) : msg_kind * bytes :=
  if fragmented s then
    match i with
    | O => (KFirst (s_id s) (s_to s), firstn (head_len s) (body s))
    | S k =>
        if (i =? length (tails s))%nat then (KLast (s_id s) (N.of_nat i), nth k (tails s) [])
        else (KMiddle (s_id s) (N.of_nat i), nth k (tails s) [])
    end
  else (KUnfragmented (s_to s), body s).

Lemma wires_length s : length (wires e s) = if fragmented s then S (length (tails s)) else 1%nat.
Proof.
  unfold wires, td_build, fragmented, tails, head_len. fold (body s). cbv zeta.
  destruct (Nat.leb_spec (length (body s)) (1001 - delivery_len (s_to s))); cbn [negb]; [reflexivity|].
  cbn [length]. now rewrite mapi_length.
Qed.

Lemma body_length s : length (body s) = (16 + length (m_payload (s_msg s)))%nat.
Proof. unfold body. pose proof (build_standard_length e (s_msg s)) as H. unfold len_long, len in H. lia. Qed.
Lemma delivery_len_le d : (1 <= delivery_len d <= 37)%nat.
Proof. destruct d; cbn; lia. Qed.

Lemma tails_count s : sent_ok s -> (length (tails s) <= 63)%nat.
Proof.
  intros (_ & _ & _ & _ & H & _). unfold tails, chunks. apply chunks_fuel_count; [lia|lia|].
  rewrite skipn_length, body_length. unfold head_len, tunnel_max in *.
  pose proof (delivery_len_le (s_to s)). lia.
Qed.
Lemma tails_pos s : fragmented s = true -> (0 < length (tails s))%nat.
Proof.
  intros H. unfold tails. apply chunks_nonempty. unfold fragmented in H.
  intros X. apply (f_equal (@length N)) in X. rewrite skipn_length in X. cbn [length] in X.
  unfold head_len in *. pose proof (delivery_len_le (s_to s)). lia.
Qed.

Lemma kind_ok_blk s i : sent_ok s -> (i < length (wires e s))%nat -> kind_ok (fst (blk s i)).
Proof.
  intros H Hi. pose proof (tails_count s H). rewrite wires_length in Hi.
  destruct H as (_ & _ & _ & _ & _ & Ht & _ & Hid & _). unfold blk.
  destruct (fragmented s); [|exact Ht]. destruct i; [split; assumption|].
  destruct (S i =? length (tails s))%nat; cbn [fst kind_ok]; split; try assumption; lia.
Qed.

Lemma wire_nth s h i : sent_ok s -> (i < length (wires e s))%nat ->
  let w := nth i (wires e s) [] in
  firstn 16 (skipn 4 w) = fst (s_rnd s i) /\
  endpoint e h (skipn 20 w) (firstn 16 (skipn 4 w)) = Some (handle_blocks h [blk s i]).
Proof.
  intros Hok Hi. cbv zeta. pose proof (kind_ok_blk s i Hok Hi) as Hk.
  pose proof (tails_count s Hok) as Htc.
  pose proof (delivery_len_le (s_to s)) as Hdl. pose proof (body_length s) as Lb.
  rewrite wires_length in Hi.
  destruct Hok as (_ & _ & _ & Hpl & Hmax & Ht & _ & _ & Hiv & _ & Hpad).
  assert (Hp : forall q, Some (s_pad s) = Some q -> ~ In 0 q) by (intros q Hq; assert (s_pad s = q) as <- by congruence; exact Hpad).
  unfold wires, td_build. fold (body s). unfold blk, fragmented in *. cbv zeta.
  destruct (Nat.leb_spec (length (body s)) (1001 - delivery_len (s_to s))) as [Hle|Hgt]; cbn [negb] in *.
  - assert (i = 0)%nat as -> by lia. cbn [nth]. apply endpoint_one; auto; [lia|].
    intros q. destruct (_ =? _)%nat; [discriminate|apply Hp].
  - destruct i as [|i]; cbn [nth].
    + apply endpoint_one; auto; [|discriminate]. rewrite firstn_length.
      apply N.le_lt_trans with (N.of_nat 1001); [|reflexivity].
      pose proof (Nat.le_min_l (head_len s) (length (body s))). unfold head_len in *. lia.
    + fold (head_len s). fold (tails s).
      rewrite (mapi_nth _ (tails s) 0 i [] []) by lia. cbn [Nat.add].
      destruct (chunks_lengths 996 (skipn (head_len s) (body s)) i ltac:(lia) ltac:(unfold tails in Hi; lia)) as [Hc _].
      unfold td_follow_on. rewrite Nat.add_1_r. fold (tails s) in Hc.
      destruct (S i =? length (tails s))%nat; cbn [fst] in Hk;
        apply endpoint_one; auto; first [discriminate | lia].
Qed.

(** ** What the handler holds for one message *)
Definition FR (s : sent) (j : nat) (seen : list (nat * nat)) : fragment :=
  mkFragment (if has (j, O) seen then Some (s_to s) else None)
    (if has (j, O) seen then Some (firstn (head_len s) (body s)) else None)
    (have (fun i => has (j, i) seen) (fun i => nth (i - 1) (tails s) []) 1 (length (tails s)))
    (if has (j, length (tails s)) seen then Some (N.of_nat (length (tails s))) else None).

Definition started (j : nat) (seen : list (nat * nat)) : bool := existsb (fun y => (fst y =? j)%nat) seen.
Definition st (s : sent) (j : nat) (seen : list (nat * nat)) : option fragment :=
  if fragmented s && started j seen then Some (FR s j seen) else None.

Lemma started_has j k seen : started j seen = false -> has (j, k) seen = false.
Proof.
  intros H. destruct (has (j, k) seen) eqn:E; [|reflexivity]. apply has_In in E.
  assert (started j seen = true); [|congruence]. unfold started. apply existsb_exists.
  exists (j, k). split; [exact E|]. apply Nat.eqb_refl.
Qed.
Lemma FR_default s j seen : started j seen = false -> FR s j seen = fragment_default.
Proof.
  intros H. unfold FR, have. rewrite !(started_has j _ seen H).
  rewrite (filter_ext_seq _ (fun _ => false)) by (intros; now apply started_has).
  assert (X : forall n a, filter (fun _ : nat => false) (seq a n) = []) by (induction n; intros; cbn; auto).
  now rewrite X.
Qed.
Lemma FR_ext s j seen seen' : (forall k, has (j, k) seen = has (j, k) seen') -> FR s j seen = FR s j seen'.
Proof.
  intros H. unfold FR, have. rewrite !H. f_equal. f_equal. apply filter_ext_seq. intros. apply H.
Qed.

Lemma FR_ready s j seen : (0 < length (tails s))%nat ->
  fr_ready (FR s j seen) = all_here (S (length (tails s))) j seen.
Proof.
  intros Hn. unfold fr_ready, FR. cbn [fr_count fr_delivery fr_first fr_follow].
  unfold all_here. cbn [seq forallb].
  destruct (has (j, O) seen) eqn:H0; cbn [andb].
  2:{ destruct (has (j, length (tails s)) seen); reflexivity. }
  unfold have. rewrite map_length. rewrite <- filter_seq_full.
  destruct (has (j, length (tails s)) seen) eqn:Hl.
  - destruct (N.eqb_spec (N.of_nat (length (tails s))) (N.of_nat (length (filter (fun i => has (j, i) seen) (seq 1 (length (tails s)))))));
      destruct (Nat.eqb_spec (length (filter (fun i => has (j, i) seen) (seq 1 (length (tails s))))) (length (tails s))); try reflexivity; lia.
  - symmetry. rewrite filter_seq_full. apply not_true_iff_false. intros X. rewrite forallb_forall in X.
    rewrite X in Hl; [discriminate|]. apply in_seq. lia.
Qed.

Lemma map_nth_seq (l : list bytes) : forall a,
  map snd (map (fun i => (N.of_nat i, nth (i - a) l [])) (seq a (length l))) = l.
Proof.
  induction l as [|x l IH]; intros a; [reflexivity|]. cbn [length seq map snd].
  rewrite Nat.sub_diag. cbn [nth]. f_equal. rewrite <- (IH (S a)) at 2.
  rewrite !map_map. apply map_ext_in. intros i Hi. apply in_seq in Hi. cbn [snd].
  replace (i - a)%nat with (S (i - S a)) by lia. reflexivity.
Qed.

Lemma parse_body s : sent_ok s -> parse_standard (body s) = Some (fst (arrived s), []).
Proof.
  intros (H1 & H2 & H3 & H4 & _). pose proof (standard_roundtrip e (s_msg s) [] H1 H2 H3 H4) as P.
  rewrite app_nil_r in P. exact P.
Qed.

Lemma FR_construct s j seen : sent_ok s -> (0 < length (tails s))%nat ->
  all_here (S (length (tails s))) j seen = true -> fr_construct (FR s j seen) = Some (arrived s).
Proof.
  intros Hok Hn H. unfold all_here in H. cbn [seq forallb] in H. apply andb_true_iff in H as [H0 H].
  unfold fr_construct, FR. cbn [fr_count fr_delivery fr_first fr_follow]. rewrite H0.
  unfold have. rewrite (filter_seq_all _ _ _ H). rewrite (map_nth_seq (tails s) 1).
  unfold tails. rewrite chunks_concat by lia. rewrite firstn_skipn, (parse_body s Hok). reflexivity.
Qed.

(** One arriving fragment of message [j]. *)
Lemma block_step s j i seen h : sent_ok s -> (i < length (wires e s))%nat ->
  nget (s_id s) h = st s j seen ->
  exists h',
    handle_block h (blk s i) =
      (h', if all_here (length (wires e s)) j ((j, i) :: seen) then Some (arrived s) else None) /\
    nget (s_id s) h' = (if all_here (length (wires e s)) j ((j, i) :: seen) then None else st s j ((j, i) :: seen)) /\
    (forall k, k <> s_id s -> nget k h' = nget k h).
Proof.
  intros Hok Hi Hg. rewrite wires_length in *. unfold blk, st in *.
  destruct (fragmented s) eqn:Hf.
  2:{ assert (i = 0)%nat as -> by lia. exists h. cbn [handle_block fst snd].
      rewrite (parse_body s Hok). unfold all_here. cbn [seq forallb].
      rewrite has_cons_same. change (0 =? 0)%nat with true. cbn [orb andb] in *.
      repeat apply conj; auto. }
  pose proof (tails_pos s Hf) as Hn. cbn [andb] in *.
  assert (Hstart : started j ((j, i) :: seen) = true) by (unfold started; cbn [existsb fst]; now rewrite Nat.eqb_refl).
  rewrite Hstart.
  assert (Hold : match nget (s_id s) h with Some y => y | None => fragment_default end = FR s j seen).
  { rewrite Hg. destruct (started j seen) eqn:E; [reflexivity|]. symmetry. now apply FR_default. }
  set (n := length (tails s)) in *.
  assert (Hup : forall f, f (FR s j seen) = FR s j ((j, i) :: seen) ->
    exists h', with_entry h (s_id s) f =
      (h', if all_here (S n) j ((j, i) :: seen) then Some (arrived s) else None) /\
      nget (s_id s) h' = (if all_here (S n) j ((j, i) :: seen) then None else Some (FR s j ((j, i) :: seen))) /\
      (forall k, k <> s_id s -> nget k h' = nget k h)).
  { intros f Hfu. unfold with_entry. rewrite Hold, Hfu. cbv zeta. rewrite (FR_ready s j _ Hn). fold n.
    destruct (all_here (S n) j ((j, i) :: seen)) eqn:Ha.
    - exists (ndel (s_id s) h). rewrite (FR_construct s j _ Hok Hn Ha).
      repeat apply conj; [reflexivity|apply nget_ndel_same|intros; now apply nget_ndel_other].
    - eexists. repeat apply conj; [reflexivity|apply nget_nput_same|intros; now apply nget_nput_other]. }
  destruct i as [|i]; cbn [handle_block fst snd].
  - unfold first_fragment. apply Hup. unfold FR. cbn [fr_follow fr_count]. rewrite !has_cons_same.
    fold n. change (0 =? 0)%nat with true. cbn [orb].
    destruct (Nat.eqb_spec n 0); [lia|]. cbn [orb]. f_equal.
    unfold have. f_equal. apply filter_ext_seq. intros k Hk. rewrite has_cons_same.
    destruct (Nat.eqb_spec k 0); [lia|reflexivity].
  - assert (Hfol : nput (N.of_nat (S i)) (nth i (tails s) [])
        (have (fun k => has (j, k) seen) (fun k => nth (k - 1) (tails s) []) 1 n) =
        have (fun k => has (j, k) ((j, S i) :: seen)) (fun k => nth (k - 1) (tails s) []) 1 n).
    { pose proof (have_nput (fun k => has (j, k) seen) (fun k => nth (k - 1) (tails s) []) (S i) n 1 ltac:(lia)) as X.
      cbv beta in X. replace (S i - 1)%nat with i in X by lia. rewrite X.
      unfold have. f_equal. apply filter_ext_seq. intros k Hk. now rewrite has_cons_same. }
    destruct (Nat.eqb_spec (S i) n) as [E|E]; cbn [handle_block fst snd].
    + unfold last_fragment. apply Hup. unfold FR. fold n. cbn [fr_follow fr_count fr_delivery fr_first].
      rewrite Hfol, !has_cons_same. destruct (Nat.eqb_spec 0 (S i)); [lia|]. cbn [orb].
      rewrite E, Nat.eqb_refl. cbn [orb]. reflexivity.
    + unfold middle_fragment. apply Hup. unfold FR. fold n. cbn [fr_follow fr_count fr_delivery fr_first].
      rewrite Hfol, !has_cons_same. destruct (Nat.eqb_spec 0 (S i)); [lia|]. cbn [orb].
      destruct (Nat.eqb_spec n (S i)); [lia|]. cbn [orb]. reflexivity.
Qed.
End Sent.

(** ** Any number of messages *)
Section Many.
Variable e : ext.
Hypothesis Hsha : forall b, (4 <= length (sha256 e b))%nat.
Variable ss : list sent.
Hypothesis Hok : Forall sent_ok ss.
Hypothesis Hids : NoDup (map s_id ss).

Notation at_ j := (nth j ss no_sent).
Definition Inv (seen : list (nat * nat)) (h : handler) : Prop :=
  forall j, (j < length ss)%nat -> nget (s_id (at_ j)) h = st e (at_ j) j seen.

Lemma ids_differ j j' : (j < length ss)%nat -> (j' < length ss)%nat -> j <> j' ->
  s_id (at_ j) <> s_id (at_ j').
Proof.
  intros H H' Hne E. apply Hne.
  apply (proj1 (NoDup_nth (map s_id ss) (s_id no_sent))) with (i := j) (j := j') in Hids;
    rewrite ?map_length; auto.
  now rewrite !map_nth.
Qed.

Lemma st_ext s j seen seen' : (forall k, has (j, k) seen = has (j, k) seen') ->
  started j seen = started j seen' -> st e s j seen = st e s j seen'.
Proof. intros H H'. unfold st. rewrite H'. now rewrite (FR_ext e s j seen seen' H). Qed.
Lemma started_cons_other j j' i seen : j' <> j -> started j' ((j, i) :: seen) = started j' seen.
Proof. intros H. unfold started. cbn [existsb fst]. destruct (Nat.eqb_spec j j'); [congruence|reflexivity]. Qed.
Lemma started_filter j seen : started j (filter (fun y => negb (fst y =? j)%nat) seen) = false.
Proof.
  unfold started. induction seen as [|[a b] seen IH]; [reflexivity|]. cbn [filter fst].
  destruct (Nat.eqb_spec a j); cbn [negb]; [exact IH|]. cbn [existsb fst]. rewrite IH.
  destruct (Nat.eqb_spec a j); [congruence|reflexivity].
Qed.
Lemma started_filter_other j j' seen : j' <> j ->
  started j' (filter (fun y => negb (fst y =? j)%nat) seen) = started j' seen.
Proof.
  intros H. unfold started. induction seen as [|[a b] seen IH]; [reflexivity|]. cbn [filter fst].
  destruct (Nat.eqb_spec a j); cbn [negb existsb fst]; rewrite IH; [|reflexivity].
  destruct (Nat.eqb_spec a j'); [congruence|reflexivity].
Qed.

Lemma receive_spec arr : forall seen h,
  Inv seen h -> Forall (is_fragment e ss) arr ->
  receive e h (map (fragment_of e ss) arr) =
  Some (map (fun o => match o with Some j => [arrived (at_ j)] | None => [] end)
          (expected (fragment_count e ss) seen arr)).
Proof.
  induction arr as [|[j i] arr IH]; intros seen h HI HF; [reflexivity|].
  inversion HF as [|? ? [Hj Hi] HF']; subst. cbn [fst snd] in *. unfold receive in *. cbn [map receive_by expected]. unfold clear_endpoint at 1.
  assert (Hs : sent_ok (at_ j)) by (rewrite Forall_forall in Hok; apply Hok, nth_In, Hj).
  unfold fragment_of at 1 2. cbn [fst snd]. unfold fragment_count in Hi.
  rewrite (proj2 (wire_nth e Hsha (at_ j) h i Hs Hi)).
  destruct (block_step e Hsha (at_ j) j i seen h Hs Hi (HI j Hj)) as (h' & Hb & Hsame & Hoth).
  cbn [handle_blocks]. rewrite Hb. fold (fragment_count e ss j) in *.
  destruct (all_here (fragment_count e ss j) j ((j, i) :: seen)) eqn:Ha.
  - rewrite (IH (filter (fun y => negb (fst y =? j)%nat) seen) h'); [reflexivity| |exact HF'].
    intros j' Hj'. destruct (Nat.eq_dec j' j) as [->|Hne].
    + rewrite Hsame. unfold st. rewrite started_filter, andb_false_r. reflexivity.
    + rewrite Hoth by (apply ids_differ; auto). rewrite (HI j' Hj').
      apply st_ext; [intros; symmetry; now apply has_filter_other|symmetry; now apply started_filter_other].
  - rewrite (IH ((j, i) :: seen) h'); [reflexivity| |exact HF'].
    intros j' Hj'. destruct (Nat.eq_dec j' j) as [->|Hne].
    + exact Hsame.
    + rewrite Hoth by (apply ids_differ; auto). rewrite (HI j' Hj').
      apply st_ext; [intros; symmetry; now apply has_cons_other|symmetry; now apply started_cons_other].
Qed.

Lemma Inv_start : Inv [] [].
Proof. intros j Hj. unfold st. cbn. now rewrite andb_false_r. Qed.
End Many.

(** ** Without duplicated fragments every complete message comes out exactly once *)
Definition somes (l : list (option nat)) : list nat :=
  flat_map (fun o => match o with Some j => [j] | None => [] end) l.

Lemma expected_once count arr : forall seen,
  (forall j, In j (map fst arr) -> (0 < count j)%nat) ->
  NoDup arr -> (forall x, In x seen -> ~ In x arr) ->
  NoDup (somes (expected count seen arr)) /\
  (forall j, In j (somes (expected count seen arr)) <->
     (exists i, In (j, i) arr) /\ all_here (count j) j (arr ++ seen) = true).
Proof.
  induction arr as [|[j i] arr IH]; intros seen Hc Hnd Hd.
  - cbn. split; [constructor|]. intros j. split; [easy|]. intros [[i Hi] _]. easy.
  - inversion Hnd as [|? ? Hni Hnd']; subst.
    assert (Hc' : forall j, In j (map fst arr) -> (0 < count j)%nat) by (intros k Hk; apply Hc; now right).
    cbn [expected]. destruct (all_here (count j) j ((j, i) :: seen)) eqn:Ha.
    + (* completed: no fragment of [j] is left *)
      assert (Hgone : forall k, (k < count j)%nat -> ~ In (j, k) arr).
      { intros k Hk Hin. rewrite all_here_In in Ha. destruct (Ha k Hk) as [E|Hs].
        - rewrite E in Hni. easy.
        - apply (Hd _ Hs). now right. }
      cbn [somes flat_map app]. fold (somes (expected count (filter (fun y => negb (fst y =? j)%nat) seen) arr)).
      destruct (IH (filter (fun y => negb (fst y =? j)%nat) seen) Hc' Hnd') as [IH1 IH2].
      { intros x Hx. apply filter_In in Hx as [Hx _]. intros X. apply (Hd _ Hx). now right. }
      assert (Hj : ~ In j (somes (expected count (filter (fun y => negb (fst y =? j)%nat) seen) arr))).
      { intros X. apply IH2 in X as [[k Hk] X]. rewrite all_here_In in X.
        specialize (X 0%nat (Hc j (or_introl eq_refl))). apply in_app_or in X as [X|X].
        - apply (Hgone 0%nat); [apply Hc; now left|exact X].
        - apply filter_In in X as [_ X]. cbn [fst] in X. now rewrite Nat.eqb_refl in X. }
      split; [constructor; auto|]. intros j'. cbn [In].
      destruct (Nat.eq_dec j j') as [<-|Hne].
      * split; [|intros _; now left]. intros _. split; [exists i; now left|].
        rewrite all_here_In in *. intros k Hk. destruct (Ha k Hk) as [E|E]; [left; congruence|].
        right. apply in_or_app. now right.
      * rewrite IH2. rewrite !all_here_In. split.
        -- intros [E|[[k Hk] X]]; [congruence|]. split; [exists k; now right|].
           intros q Hq. right. apply in_or_app. destruct (in_app_or _ _ _ (X q Hq)) as [Y|Y]; [now left|].
           apply filter_In in Y as [Y _]. now right.
        -- intros [[k Hk] X]. right. split.
           ++ destruct Hk as [E|Hk]; [congruence|]. now exists k.
           ++ intros q Hq. destruct (X q Hq) as [E|Y]; [congruence|]. apply in_app_or in Y as [Y|Y]; apply in_or_app; [now left|].
              right. apply filter_In. split; [exact Y|]. cbn [fst]. destruct (Nat.eqb_spec j' j); [congruence|reflexivity].
    + cbn [somes flat_map app]. fold (somes (expected count ((j, i) :: seen) arr)).
      destruct (IH ((j, i) :: seen) Hc' Hnd') as [IH1 IH2].
      { intros x [<-|Hx]; [exact Hni|]. intros X. apply (Hd _ Hx). now right. }
      split; [exact IH1|]. intros j'. rewrite IH2.
      assert (Hperm : all_here (count j') j' (arr ++ (j, i) :: seen) = all_here (count j') j' (((j, i) :: arr) ++ seen)).
      { apply eq_true_iff_eq. rewrite !all_here_In. split; intros X k Hk; specialize (X k Hk).
        - apply in_app_or in X as [X|[X|X]]; [right; apply in_or_app; now left|now left|right; apply in_or_app; now right].
        - apply in_or_app. destruct X as [X|X]; [right; now left|]. apply in_app_or in X as [X|X]; [now left|right; now right]. }
      rewrite Hperm. split.
      * intros [[k Hk] X]. split; [exists k; now right|exact X].
      * intros [[k Hk] X]. split; [|exact X]. destruct Hk as [E|Hk]; [|now exists k].
        assert (j = j') as <- by congruence. assert (i = k) as <- by congruence.
        (* another fragment must still be missing *)
        rewrite all_here_In in X.
        destruct (forallb (fun q => has (j, q) ((j, i) :: seen)) (seq 0 (count j))) eqn:Y.
        { unfold all_here in Ha. congruence. }
        apply not_true_iff_false in Y. rewrite forallb_forall in Y.
        assert (Hex : exists q, In q (seq 0 (count j)) /\ ~ In (j, q) ((j, i) :: seen)).
        { clear -Y. apply not_true_iff_false in Ha || idtac.
          destruct (existsb (fun q => negb (has (j, q) ((j, i) :: seen))) (seq 0 (count j))) eqn:Z.
          - apply existsb_exists in Z as (q & Hq & Z). exists q. split; [exact Hq|]. intros W.
            apply has_In in W. rewrite W in Z. discriminate.
          - exfalso. apply Y. intros q Hq. destruct (has (j, q) ((j, i) :: seen)) eqn:W; [reflexivity|].
            assert (existsb (fun q => negb (has (j, q) ((j, i) :: seen))) (seq 0 (count j)) = true); [|congruence].
            apply existsb_exists. exists q. split; [exact Hq|]. now rewrite W. }
        destruct Hex as (q & Hq & Hmiss). apply in_seq in Hq.
        destruct (X q ltac:(lia)) as [W|W]; [exfalso; apply Hmiss; now left|].
        apply in_app_or in W as [W|W]; [now exists q|]. exfalso. apply Hmiss. now right.
Qed.
