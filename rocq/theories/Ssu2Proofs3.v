(** A session that receives the pieces of messages in any order. *)
From Coq Require Import List NArith Bool Arith Lia ZArith ZifyBool ZifyNat ZifyN Sorting.Sorted.
From Verif Require Import ListUtil Bytes NMap PrimModel I2npModel I2npSpec I2npProofs Ntcp2Model Ntcp2Spec
  Ntcp2Proofs TunnelModel TunnelSpec TunnelProofs TunnelProofs2 Ssu2Model Ssu2Spec Ssu2Proofs Ssu2Proofs2.
Import ListNotations.
Open Scope N_scope.

Lemma nget_filter {V} (P : N * V -> bool) k (m : nmap V) : NoDup (nkeys m) ->
  nget k (filter P m) = match nget k m with Some v => if P (k, v) then Some v else None | None => None end.
Proof.
  induction m as [|[k' v] m IH]; intros H; [reflexivity|]. inversion H as [|? ? H1 H2]; subst.
  cbn [filter nget]. destruct (N.eqb_spec k k') as [->|Hne].
  - destruct (P (k', v)); cbn [nget]; [now rewrite N.eqb_refl|].
    rewrite IH by exact H2. assert (nget k' m = None) as -> by now apply nget_None_nkeys. reflexivity.
  - destruct (P (k', v)); cbn [nget]; [|auto]. destruct (N.eqb_spec k k'); [congruence|auto].
Qed.
Lemma sorted_filter {V} (P : N * V -> bool) (m : nmap V) : sorted (nkeys m) -> sorted (nkeys (filter P m)).
Proof.
  unfold sorted. induction m as [|x m IH]; intros H; [exact H|]. inversion H as [|? ? H1 H2]; subst.
  cbn [filter]. destruct (P x); auto. cbn [nkeys map]. constructor; [now apply IH|].
  rewrite Forall_forall in *. intros y Hy. apply H2. unfold nkeys in *.
  apply in_map_iff in Hy as (z & <- & Hz). apply filter_In in Hz as [Hz _]. now apply in_map.
Qed.

(** ** One message, abstractly: which of its pieces are held, and since when *)
Definition inl (i : nat) (l : list nat) : bool := existsb (Nat.eqb i) l.
Lemma inl_In i l : inl i l = true <-> In i l.
Proof.
  unfold inl. rewrite existsb_exists. split.
  - intros (x & H & E). apply Nat.eqb_eq in E. now subst.
  - intros H. exists i. split; auto. apply Nat.eqb_refl.
Qed.
Definition complete (n : nat) (l : list nat) : bool := forallb (fun i => inl i l) (seq 0 n).
Lemma complete_spec n l : complete n l = true <-> forall i, (i < n)%nat -> In i l.
Proof.
  unfold complete. rewrite forallb_forall. split; intros H i Hi.
  - apply inl_In, H, in_seq. lia.
  - apply inl_In, H. apply in_seq in Hi. lia.
Qed.
Definition held : Type := option (N * list nat).
Definition born (t : N) (h : held) : N := match h with Some (b, _) => b | None => t end.
Definition pcs (h : held) : list nat := match h with Some (_, l) => l | None => [] end.
Definition held_step (count : nat) (t : N) (h : held) (i : nat) : held * bool :=
  if complete count (i :: pcs h) then (None, true) else (Some (born t h, i :: pcs h), false).

Definition frag_of (m : message) (x : N * list nat) : fragment :=
  mkFrag (have (fun i => inl i (snd x)) (chunk m) 0 (chunk_count m))
    (if inl (chunk_count m - 1) (snd x) then Some (N.of_nat (chunk_count m)) else None)
    (if inl 0 (snd x) then Some (m_type m, m_id m, secs_of (m_expiration m)) else None)
    (fst x).

Lemma entry_frag now m (h : held) fh : nget (m_id m) (fh_messages fh) = option_map (frag_of m) h ->
  entry now (m_id m) fh = frag_of m (born now h, pcs h).
Proof.
  intros E. unfold entry. rewrite E. destruct h as [[b l]|]; [reflexivity|].
  cbn [option_map born pcs frag_of snd fst inl existsb]. unfold frag_default, frag_of. cbn [snd fst inl existsb].
  f_equal. unfold have. cbn [inl existsb].
  assert (X : forall n a, filter (fun _ : nat => false) (seq a n) = []) by (induction n; intros; cbn; auto).
  now rewrite X.
Qed.

Lemma ready_complete m x : (2 <= chunk_count m)%nat ->
  is_ready (frag_of m x) = complete (chunk_count m) (snd x).
Proof.
  intros H. destruct x as [b l]. unfold is_ready, frag_of. cbn [f_num f_info f_frags snd].
  unfold complete. destruct (forallb (fun i => inl i l) (seq 0 (chunk_count m))) eqn:E.
  - pose proof E as A. rewrite forallb_forall in A.
    rewrite !A by (apply in_seq; lia). unfold have. rewrite filter_seq_all by exact E.
    rewrite map_length, seq_length. apply N.eqb_refl.
  - destruct (inl (chunk_count m - 1) l); [|reflexivity].
    destruct (inl 0 l); [|reflexivity]. unfold have. rewrite map_length.
    pose proof (filter_seq_full (fun i => inl i l) (chunk_count m) 0) as FF. rewrite E in FF.
    apply Nat.eqb_neq in FF. apply N.eqb_neq. lia.
Qed.
Lemma map_nth_seq0 (l : list bytes) : forall a,
  map snd (map (fun i => (N.of_nat i, nth (i - a) l [])) (seq a (length l))) = l.
Proof.
  induction l as [|x l IH]; intros a; [reflexivity|]. cbn [length seq map snd].
  rewrite Nat.sub_diag. cbn [nth]. f_equal. rewrite <- (IH (S a)) at 2. rewrite !map_map.
  apply map_ext_in. intros i Hi. apply in_seq in Hi. cbn [snd].
  replace (i - a)%nat with (S (i - S a)) by lia. reflexivity.
Qed.
Lemma construct_complete m x : (2 <= chunk_count m)%nat -> complete (chunk_count m) (snd x) = true ->
  construct (frag_of m x) = Some (received m).
Proof.
  intros H E. destruct x as [b l]. unfold construct, frag_of. cbn [f_info f_frags snd] in *.
  pose proof E as A. unfold complete in A. rewrite forallb_forall in A.
  rewrite A by (apply in_seq; lia). unfold received. rewrite whole_seconds_eq. f_equal. f_equal.
  unfold have. unfold complete in E. rewrite filter_seq_all by exact E.
  unfold chunk, chunk_count. pose proof (map_nth_seq0 (chunks 1200 (m_payload m)) 0) as M.
  replace (map (fun i : nat => (N.of_nat i, nth i (chunks 1200 (m_payload m)) [])) (seq 0 (length (chunks 1200 (m_payload m)))))
    with (map (fun i : nat => (N.of_nat i, nth (i - 0) (chunks 1200 (m_payload m)) [])) (seq 0 (length (chunks 1200 (m_payload m)))))
    by (apply map_ext; intros; now rewrite Nat.sub_0_r).
  rewrite M. apply chunks_concat. lia.
Qed.

Section Session.
Variable e : ext.
Variable c : ncrypt.
Variable ks : bytes -> bytes -> bytes.
Hypothesis Hc : aead_ok c.
Variable k : skeys.
Variable dst : N.
Hypothesis Hdst : dst < 2 ^ 64.
Variable ms : list message.
Hypothesis Hms : Forall sendable ms.
Hypothesis Hids : NoDup (map m_id ms).

Notation msg := (msg_at ms).
Notation count := (piece_count ms).

Lemma msg_sendable j : (j < length ms)%nat -> sendable (msg j).
Proof. intros. rewrite Forall_forall in Hms. apply Hms. now apply nth_In. Qed.
Lemma msg_id_inj i j : (i < length ms)%nat -> (j < length ms)%nat -> m_id (msg i) = m_id (msg j) -> i = j.
Proof.
  clear e c ks Hc k dst Hdst Hms. intros Hi Hj E. assert (L : length (map m_id ms) = length ms) by apply map_length.
  apply (proj1 (NoDup_nth (map m_id ms) 0)); auto; try lia.
  unfold msg_at in E. rewrite <- !(map_nth m_id) in E. exact E.
Qed.
Lemma count_pos j : (j < length ms)%nat -> (1 <= count j)%nat.
Proof.
  intros H. unfold piece_count. destruct (msg_sendable j H) as [(F1 & F2 & F3 & F4) L].
  destruct (small (msg j)) eqn:Sm; [rewrite pieces_small by exact Sm; cbn; lia|].
  destruct (pieces_large ks (msg j) F3 Sm) as [-> _].
  unfold small in Sm. pose proof (chunk_count_large ks (msg j) ltac:(lia)). lia.
Qed.

(** Abstract state: time of the next garbage collection, and the pieces held of each message. *)
Definition absstate : Type := N * (nat -> held).
Definition gc_held (t : N) (h : held) : held :=
  match h with
  | Some (b, l) => if t - b <? msg_expiration_threshold then Some (b, l) else None
  | None => None
  end.
Definition abs_step (s : absstate) (x : N * arrival) : absstate :=
  match snd x with
  | APiece j i _ _ =>
      (fst s, fun j' => if (j' =? j)%nat then fst (held_step (count j) (fst x) (snd s j) i) else snd s j')
  | APoll =>
      if fst x <? fst s then s
      else (fst x + gc_interval, fun j => gc_held (fst x) (snd s j))
  end.
(** Which message is complete now. *)
Definition abs_out (s : absstate) (x : N * arrival) : option nat :=
  match snd x with
  | APiece j i _ _ => if snd (held_step (count j) (fst x) (snd s j) i) then Some j else None
  | APoll => None
  end.

Definition repr (s : ssu2) (a : absstate) : Prop :=
  fh_timer (ss_frag s) = fst a /\ sorted (nkeys (fh_messages (ss_frag s))) /\
  (forall j, (j < length ms)%nat ->
     nget (m_id (msg j)) (fh_messages (ss_frag s)) = option_map (frag_of (msg j)) (snd a j) /\
     (small (msg j) = true -> snd a j = None)) /\
  exists hist, ack_inv hist (ss_ack s) /\ highest_seen (ss_ack s) < 2 ^ 32 - 1.

Lemma repr_new start : repr (ss_new start) (start + gc_interval, fun _ => None).
Proof.
  refine (conj eq_refl (conj _ (conj _ _))); cbn [ss_new ss_frag fh_new fh_messages ss_ack nkeys map].
  - constructor.
  - intros j Hj. split; reflexivity.
  - exists []. split; [apply ack_inv_new|]. cbn. lia.
Qed.

Definition dup_out (t : N) (d : dupfilter) (o : option nat) : dupfilter * list message :=
  match o with
  | Some j => handle_message t d (received (msg j))
  | None => (d, [])
  end.

Lemma step_correct s a x : repr s a -> arrival_ok ms x ->
  exists s', sess_step e c ks k s (op_of c ks k dst ms x) =
      (Some s', map (pair (fst x)) (snd (dup_out (fst x) (ss_dup s) (abs_out a x)))) /\
    repr s' (abs_step a x) /\
    ss_dup s' = fst (dup_out (fst x) (match snd x with APoll => dup_poll (ss_dup s) (fst x) | _ => ss_dup s end) (abs_out a x)).
Proof.
  intros (RT & RS & RE & hist & RA & RH) OK. destruct x as [t [j i n ai|]]; cbn [fst snd] in *.
  - destruct OK as (Hj & Hi & Hn & Ha). unfold op_of. cbn [fst snd].
    pose proof (msg_sendable j Hj) as [F L]. pose proof F as (F1 & F2 & F3 & F4).
    destruct (piece_received e c ks Hc (msg j) i k dst n ai t s F Hi Hdst) as (d & Ed & Er); auto; [lia|].
    rewrite Ed. unfold sess_step. cbn [snd fst]. rewrite Er. clear Er Ed d.
    destruct (register_inv hist (ss_ack s) n RA RH Hn) as (a1 & E1 & I1 & M1).
    destruct (register_inv _ a1 n I1) as (a2 & E2 & I2 & M2); [lia|lia|].
    unfold handle_blocks at 1. rewrite E1. cbn [ss_dup ss_frag ss_pkt_num ss_ack].
    destruct (RE j Hj) as [RJ RN]. unfold abs_step, abs_out. cbn [snd fst].
    destruct (small (msg j)) eqn:Sm.
    + (* one packet *)
      assert (Hp : pieces (msg j) = [KWhole (build_short (msg j))]) by now apply pieces_small.
      unfold piece_count in *. rewrite Hp in *. cbn [length] in Hi.
      replace i with 0%nat by lia. cbn [nth piece_block].
      rewrite (RN eq_refl). unfold held_step. cbn [pcs born length].
      change (complete 1 [0%nat]) with true. cbn [fst snd].
      unfold dup_out. destruct (handle_message t (ss_dup s) (received (msg j))) as [d o] eqn:HM.
      cbn [app fst snd]. cbn [handle_blocks ss_ack]. rewrite E2.
      destruct ai as [[th nu] ra]. cbn [ack_block ss_pkt_num ss_dup ss_frag].
      eexists. split; [reflexivity|]. split; [|rewrite ?HM; reflexivity].
      refine (conj RT (conj RS (conj _ _))); cbn [ss_frag ss_ack fst snd].
      * intros j' Hj'. destruct (Nat.eqb_spec j' j) as [->|]; [|apply RE; exact Hj'].
        rewrite RJ, (RN eq_refl). split; reflexivity.
      * eexists. split; [exact I2|]. lia.
    + (* several packets *)
      assert (CC : (2 <= chunk_count (msg j))%nat).
      { apply (chunk_count_large ks). unfold small in Sm. lia. }
      destruct (pieces_large ks (msg j) F3 Sm) as (PL & P0 & Pi).
      pose proof (chunk_count_le (msg j) F) as CL.
      unfold piece_count in *. rewrite PL in *.
      set (x := (born t (snd a j), i :: pcs (snd a j))).
      assert (Hfin : exists fr, fr = frag_of (msg j) x /\
        match piece_block (msg j) (nth i (pieces (msg j)) (KWhole [])) with
        | SFirst ty id xp f => first_fragment t (ss_frag s) ty id xp f = finish (m_id (msg j)) fr (ss_frag s)
        | SFollow last id num f => follow_on_fragment t (ss_frag s) id num last f = finish (m_id (msg j)) fr (ss_frag s)
        | _ => False
        end).
      { eexists. split; [reflexivity|]. pose proof (entry_frag t (msg j) (snd a j) (ss_frag s) RJ) as EN.
        destruct i as [|i].
        - rewrite P0. cbn [piece_block]. unfold first_fragment. rewrite EN. cbv zeta. f_equal.
          unfold frag_of. cbn [f_frags f_num f_created f_info fst snd x inl existsb Nat.eqb orb].
          rewrite secs_whole. f_equal.
          + rewrite (have_nput _ (chunk (msg j)) 0 (chunk_count (msg j)) 0) by lia. reflexivity.
          + destruct (Nat.eqb_spec (chunk_count (msg j) - 1) 0); [lia|]. reflexivity.
        - rewrite Pi by lia. cbn [piece_block]. unfold follow_on_fragment. rewrite EN. cbv zeta. f_equal.
          rewrite N.mod_small by lia.
          replace (N.of_nat (S i - 1) + 1) with (N.of_nat (S i)) by lia.
          unfold frag_of. cbn [f_frags f_num f_created f_info fst snd x]. f_equal.
          + rewrite (have_nput _ (chunk (msg j)) (S i) (chunk_count (msg j)) 0) by lia. reflexivity.
          + cbn [inl existsb]. rewrite (Nat.eqb_sym (chunk_count (msg j) - 1)).
            destruct (Nat.eqb_spec (S i) (chunk_count (msg j) - 1)); cbn [orb]; [|reflexivity].
            f_equal. lia. }
      destruct Hfin as (fr & Efr & Hfin).
      assert (Hgoal : forall fin, fin = finish (m_id (msg j)) fr (ss_frag s) ->
        exists s', 
          match (let '(h, r) := fin in
                 let '(d, o) := deliver_opt t (ss_dup s) r in
                 handle_blocks t n (mkSsu2 (ss_pkt_num s) a1 d h) [ack_block ai] ([] ++ o)) with
          | Handled s' out => (Some s', map (pair t) out)
          | Rejected s' => (Some s', [])
          | Terminated _ out _ => (None, map (pair t) out)
          | Panicked => (None, [])
          end = (Some s', map (pair t) (snd (dup_out t (ss_dup s) (if snd (held_step (chunk_count (msg j)) t (snd a j) i) then Some j else None)))) /\
          repr s' (fst a, fun j' => if (j' =? j)%nat then fst (held_step (chunk_count (msg j)) t (snd a j) i) else snd a j') /\
          ss_dup s' = fst (dup_out t (ss_dup s) (if snd (held_step (chunk_count (msg j)) t (snd a j) i) then Some j else None))).
      { intros fin ->. unfold finish. rewrite Efr, (ready_complete (msg j) x CC).
        unfold held_step. cbn [x snd]. change (snd x) with (i :: pcs (snd a j)).
        destruct (complete (chunk_count (msg j)) (i :: pcs (snd a j))) eqn:E.
        - rewrite (construct_complete (msg j) x CC E). cbn [fst snd deliver_opt dup_out].
          destruct (handle_message t (ss_dup s) (received (msg j))) as [d o] eqn:HM.
          cbn [app handle_blocks ss_ack]. rewrite E2.
          destruct ai as [[th nu] ra]. cbn [ack_block ss_pkt_num ss_dup ss_frag fst snd].
          eexists. split; [reflexivity|]. split; [|reflexivity].
          refine (conj RT (conj _ (conj _ _))); cbn [ss_frag ss_ack fst snd fh_messages fh_timer].
          + now apply ndel_Sorted.
          + intros j' Hj'. destruct (Nat.eqb_spec j' j) as [->|Hne].
            * rewrite nget_ndel_same. split; reflexivity.
            * rewrite nget_ndel_other by (intros X; apply Hne; now apply msg_id_inj). apply RE; exact Hj'.
          + eexists. split; [exact I2|]. lia.
        - cbn [fst snd deliver_opt dup_out app handle_blocks ss_ack]. rewrite E2.
          destruct ai as [[th nu] ra]. cbn [ack_block ss_pkt_num ss_dup ss_frag fst snd].
          eexists. split; [reflexivity|]. split; [|reflexivity].
          refine (conj RT (conj _ (conj _ _))); cbn [ss_frag ss_ack fst snd fh_messages fh_timer].
          + now apply nput_Sorted.
          + intros j' Hj'. destruct (Nat.eqb_spec j' j) as [->|Hne].
            * rewrite nget_nput_same. split; [reflexivity|congruence].
            * rewrite nget_nput_other by (intros X; apply Hne; now apply msg_id_inj). apply RE; exact Hj'.
          + eexists. split; [exact I2|]. lia. }
      destruct (piece_block (msg j) (nth i (pieces (msg j)) (KWhole []))) as [| | | |ty id xp f|last id num f| | | | | | | | |];
        try contradiction;
        destruct (Hgoal _ Hfin) as (s' & G1 & G2 & G3); exists s'; exact (conj G1 (conj G2 G3)).
  - unfold op_of, sess_step. cbn [snd fst]. eexists. split; [reflexivity|]. cbn [abs_out snd dup_out fst map].
    refine (conj _ eq_refl). unfold ss_poll, fh_poll, abs_step. cbn [snd fst]. rewrite RT.
    destruct (N.ltb_spec t (fst a)) as [Lt|Lt].
    + refine (conj RT (conj RS (conj RE _))). exists hist. auto.
    + refine (conj eq_refl (conj _ (conj _ _))); cbn [ss_frag fh_messages ss_ack fst snd].
      * now apply sorted_filter.
      * intros j Hj. destruct (RE j Hj) as [RJ RN]. rewrite nget_filter by now apply sorted_NoDup.
        rewrite RJ. unfold gc_held. destruct (snd a j) as [[b l]|] eqn:E; cbn [option_map frag_of f_created fst snd].
        -- split; [|intros X; now specialize (RN X)]. destruct (t - b <? msg_expiration_threshold); reflexivity.
        -- split; auto.
      * exists hist. auto.
Qed.
End Session.
