(** What a session hands on: traces of arrivals, and of arbitrary datagrams. *)
From Coq Require Import List NArith Bool Arith Lia ZArith ZifyBool ZifyNat ZifyN Sorting.Sorted.
From Verif Require Import ListUtil Bytes NMap PrimModel I2npModel I2npSpec I2npProofs Ntcp2Model Ntcp2Spec
  Ntcp2Proofs TunnelModel TunnelSpec TunnelProofs TunnelProofs2 Ssu2Model Ssu2Spec Ssu2Proofs Ssu2Proofs2
  Ssu2Proofs3.
Import ListNotations.
Open Scope N_scope.

Section Session.
Variable e : ext.
Variable c : ncrypt.
Variable ks : bytes -> bytes -> bytes.
Hypothesis Hc : aead_ok c.
Variable k : skeys.
Variable dst : N.
Hypothesis Hdst : dst < 2 ^ 64.
Variable ms : list message.
Hypothesis Hms : Forall sendable ms.
Hypothesis Hids : NoDup (map m_id ms).

Notation msg := (msg_at ms).
Notation count := (piece_count ms).
Notation trace s xs := (sess_trace e c ks k s (map (op_of c ks k dst ms) xs)).

Lemma trace_step s a x xs : repr ms s a -> arrival_ok ms x ->
  exists s', repr ms s' (abs_step ms a x) /\
    ss_dup s' = fst (dup_out ms (fst x) (match snd x with APoll => dup_poll (ss_dup s) (fst x) | _ => ss_dup s end) (abs_out ms a x)) /\
    trace s (x :: xs) = map (pair (fst x)) (snd (dup_out ms (fst x) (ss_dup s) (abs_out ms a x))) ++ trace s' xs.
Proof.
  intros R OK. destruct (step_correct e c ks Hc k dst Hdst ms Hms Hids s a x R OK) as (s' & E & R' & D).
  exists s'. refine (conj R' (conj D _)). cbn [map sess_trace]. rewrite E. reflexivity.
Qed.

Lemma dup_out_In t d o m : In m (snd (dup_out ms t d o)) -> exists j, o = Some j /\ m = received (msg j).
Proof.
  destruct o as [j|]; cbn [dup_out snd]; [|intros []]. unfold handle_message.
  destruct (msg_expired t (received (msg j))); [intros []|].
  destruct (dup_insert d (m_id (received (msg j)))) as [d' [|]]; cbn [snd]; [|intros []].
  intros [<-|[]]. eauto.
Qed.
Lemma abs_out_Some a x j : abs_out ms a x = Some j ->
  exists i n ai, snd x = APiece j i n ai /\ complete (count j) (i :: pcs (snd a j)) = true.
Proof.
  unfold abs_out. destruct (snd x) as [j' i n ai|]; [|discriminate]. unfold held_step.
  destruct (complete (count j') (i :: pcs (snd a j'))) eqn:E; cbn [snd]; [|discriminate].
  intros X. assert (j' = j) as -> by congruence. eauto.
Qed.
Definition arrived_in (past : list (N * arrival)) (j i : nat) : Prop :=
  exists t n ai, In (t, APiece j i n ai) past.
Lemma arrived_app p q j i : arrived_in p j i -> arrived_in (p ++ q) j i.
Proof. intros (t & n & ai & H). exists t, n, ai. apply in_or_app. auto. Qed.

Lemma pcs_step a x j i : In i (pcs (snd (abs_step ms a x) j)) ->
  In i (pcs (snd a j)) \/ exists n ai, snd x = APiece j i n ai.
Proof.
  unfold abs_step. destruct x as [t [j' i' n ai|]]; cbn [snd fst].
  - destruct (Nat.eqb_spec j j') as [->|]; [|auto]. unfold held_step.
    destruct (complete (count j') (i' :: pcs (snd a j'))); cbn [fst pcs]; [intros []|].
    intros [<-|H]; eauto.
  - destruct (t <? fst a); [auto|]. cbn [snd]. unfold gc_held.
    destruct (snd a j) as [[b l]|]; [|auto]. destruct (t - b <? msg_expiration_threshold); [auto|intros []].
Qed.

(** Only whole messages are handed on. *)
Lemma trace_safe : forall xs past s a t m, repr ms s a ->
  (forall j i, In i (pcs (snd a j)) -> arrived_in past j i) ->
  Forall (arrival_ok ms) xs -> In (t, m) (trace s xs) ->
  exists j pre x post, (j < length ms)%nat /\ m = received (msg j) /\ xs = pre ++ x :: post /\ fst x = t /\
    forall i, (i < count j)%nat -> arrived_in (past ++ pre ++ [x]) j i.
Proof.
  induction xs as [|x xs IH]; intros past s a t m R P OK H; [destruct H|].
  inversion OK as [|? ? OK1 OK2]; subst.
  destruct (trace_step s a x xs R OK1) as (s' & R' & _ & E). rewrite E in H.
  apply in_app_or in H as [H|H].
  - apply in_map_iff in H as (m' & X & Hm). assert (m' = m /\ fst x = t) as [-> <-] by (split; congruence).
    apply dup_out_In in Hm as (j & Eo & ->). apply abs_out_Some in Eo as (i & n & ai & Ex & Hcmp).
    exists j, [], x, xs. destruct x as [t' a']. cbn [snd fst app] in *. subst a'.
    refine (conj _ (conj eq_refl (conj eq_refl (conj eq_refl _)))).
    { destruct OK1 as [Hj _]. exact Hj. }
    intros i' Hi'. pose proof (proj1 (complete_spec _ _) Hcmp) as Cs. destruct (Cs i' Hi') as [<-|Hin].
    + exists t', n, ai. apply in_or_app. right. now left.
    + apply arrived_app. now apply P.
  - destruct (IH (past ++ [x]) s' (abs_step ms a x) t m R') as (j & pre & y & post & H1 & H2 & H3 & H4 & H5); auto.
    { intros j i Hi. apply pcs_step in Hi as [Hi|(n & ai & Ex)].
      - apply arrived_app. now apply P.
      - exists (fst x), n, ai. apply in_or_app. right. left. destruct x; cbn in *; now subst. }
    exists j, (x :: pre), y, post. refine (conj H1 (conj H2 (conj _ (conj H4 _)))).
    + rewrite H3. reflexivity.
    + intros i Hi. specialize (H5 i Hi). rewrite <- app_assoc in H5. exact H5.
Qed.

(** ** Exactly once *)
Variable j : nat.
Hypothesis Hj : (j < length ms)%nat.
Variable t0 : N.
Hypothesis Hexp : t0 + half_minute <= m_expiration (received (msg j)).

Definition of_j (x : N * message) : bool := m_id (snd x) =? m_id (msg j).
Definition in_window (xs : list (N * arrival)) : Prop :=
  forall t i n ai, In (t, APiece j i n ai) xs -> t0 <= t < t0 + half_minute.
Definition no_more (xs : list (N * arrival)) : Prop := forall i, ~ arrived_in xs j i.
Definition guarded (d : dupfilter) : Prop :=
  In (m_id (msg j)) (d_current d) \/
  In (m_id (msg j)) (d_previous d) /\ t0 + half_minute <= d_timer d.

Lemma received_id m : m_id (received m) = m_id m.
Proof. reflexivity. Qed.

Lemma no_more_trace : forall xs s a, repr ms s a -> Forall (arrival_ok ms) xs -> no_more xs ->
  filter of_j (trace s xs) = [].
Proof.
  induction xs as [|x xs IH]; intros s a R OK NM; [reflexivity|].
  inversion OK as [|? ? OK1 OK2]; subst.
  destruct (trace_step s a x xs R OK1) as (s' & R' & _ & E). rewrite E, filter_app.
  rewrite (IH s' _ R' OK2), app_nil_r.
  - destruct (filter of_j (map (pair (fst x)) (snd (dup_out ms (fst x) (ss_dup s) (abs_out ms a x))))) as [|y l] eqn:F;
      [reflexivity|]. exfalso.
    assert (In y (y :: l)) as Hy by now left. rewrite <- F in Hy. apply filter_In in Hy as [Hy B].
    apply in_map_iff in Hy as (m & <- & Hm). apply dup_out_In in Hm as (j' & Eo & ->).
    apply abs_out_Some in Eo as (i & n & ai & Ex & _). unfold of_j in B. cbn [snd] in B. rewrite received_id in B.
    apply N.eqb_eq in B. destruct x as [t a']; cbn [snd] in Ex; subst a'. destruct OK1 as [Hj' _].
    apply (msg_id_inj ms Hids) in B; auto. subst j'.
    apply (NM i). exists t, n, ai. now left.
  - intros i (t & n & ai & H). apply (NM i). exists t, n, ai. now right.
Qed.

Lemma filter_other x s a j' i n ai : snd x = APiece j' i n ai -> j' <> j -> arrival_ok ms x ->
  filter of_j (map (pair (fst x)) (snd (dup_out ms (fst x) (ss_dup s) (abs_out ms a x)))) = [].
Proof.
  intros Ex Hne OK.
  destruct (filter of_j _) as [|y l] eqn:F; [reflexivity|]. exfalso.
  assert (In y (y :: l)) as Hy by now left. rewrite <- F in Hy. apply filter_In in Hy as [Hy B].
  apply in_map_iff in Hy as (m & <- & Hm). apply dup_out_In in Hm as (j2 & Eo & ->).
  apply abs_out_Some in Eo as (i2 & n2 & ai2 & Ex2 & _). rewrite Ex in Ex2.
  assert (j2 = j') as -> by congruence.
  unfold of_j in B. cbn [snd] in B. rewrite received_id in B. apply N.eqb_eq in B.
  destruct x as [t a']; cbn [snd] in Ex; subst a'. destruct OK as [Hj' _].
  apply (msg_id_inj ms Hids) in B; auto.
Qed.

(** Other messages do not touch what the filter says about this one. *)
Lemma dup_other t d j' : (j' < length ms)%nat -> j' <> j ->
  let d' := fst (dup_out ms t d (Some j')) in
  d_timer d' = d_timer d /\ d_previous d' = d_previous d /\
  (In (m_id (msg j)) (d_current d') <-> In (m_id (msg j)) (d_current d)).
Proof.
  intros Hj' Hne. cbn [dup_out]. unfold handle_message. destruct (msg_expired t (received (msg j'))); [cbn; tauto|].
  unfold dup_insert. rewrite received_id.
  destruct (smem (m_id (msg j')) (d_current d) || smem (m_id (msg j')) (d_previous d)); cbn; [tauto|].
  refine (conj eq_refl (conj eq_refl _)). rewrite sadd_In. split; [|auto].
  intros [E|H]; [|exact H]. exfalso. apply Hne. symmetry. now apply (msg_id_inj ms Hids).
Qed.

Lemma in_window_cons x xs : in_window (x :: xs) -> in_window xs.
Proof. intros H t i n ai Hin. apply (H t i n ai). now right. Qed.

Lemma abs_out_j a t i n ai o : abs_out ms a (t, APiece j i n ai) = o -> o = None \/ o = Some j.
Proof.
  intros <-. unfold abs_out. cbn [snd fst].
  destruct (snd (held_step (count j) t (snd a j) i)); auto.
Qed.
Lemma guarded_rejects t d o : guarded d -> o = None \/ o = Some j -> dup_out ms t d o = (d, []).
Proof.
  intros G [->| ->]; [reflexivity|]. cbn [dup_out]. unfold handle_message.
  destruct (msg_expired t (received (msg j))); [reflexivity|]. rewrite received_id. unfold dup_insert.
  destruct G as [G|[G _]]; apply smem_In in G; rewrite G; [|rewrite orb_true_r]; reflexivity.
Qed.
Lemma guarded_other t d j' : (j' < length ms)%nat -> j' <> j -> guarded d ->
  guarded (fst (dup_out ms t d (Some j'))).
Proof.
  intros Hj' Hne G. destruct (dup_other t d j' Hj' Hne) as (A & B & C). unfold guarded.
  rewrite A, B, C. exact G.
Qed.

(** After the message was handed on. *)
Lemma phase_b : forall xs s a now, repr ms s a -> Forall (arrival_ok ms) xs -> monotone now xs ->
  t0 <= now -> in_window xs -> guarded (ss_dup s) -> filter of_j (trace s xs) = [].
Proof.
  induction xs as [|x xs IH]; intros s a now R OK M T W G; [reflexivity|].
  inversion OK as [|? ? OK1 OK2]; subst.
  destruct (trace_step s a x xs R OK1) as (s' & R' & D & E). rewrite E, filter_app.
  destruct x as [t ar]. cbn [monotone] in M. destruct M as [M1 M2]. cbn [fst snd] in *.
  pose proof (in_window_cons _ _ W) as W'.
  destruct ar as [j' i n ai|].
  - destruct (Nat.eq_dec j' j) as [->|Hne].
    + (* a repeated piece: even if it completes the message again it is a duplicate *)
      pose proof (guarded_rejects t (ss_dup s) _ G (abs_out_j a t i n ai _ eq_refl)) as X.
      rewrite X in D |- *. cbn [fst snd map filter app] in *.
      apply (IH s' _ t R' OK2 M2); auto; [lia|]. now rewrite D.
    + assert (F : filter of_j (map (pair t) (snd (dup_out ms t (ss_dup s) (abs_out ms a (t, APiece j' i n ai))))) = []).
      { apply (filter_other (t, APiece j' i n ai) s a j' i n ai eq_refl Hne OK1). }
      rewrite F. cbn [app]. apply (IH s' _ t R' OK2 M2); auto; [lia|]. rewrite D.
      unfold abs_out. cbn [snd fst]. destruct (snd (held_step (count j') t (snd a j') i)); [|exact G].
      apply guarded_other; auto. destruct OK1 as [OK1 _]. exact OK1.
  - cbn [abs_out snd dup_out map filter app fst] in *. unfold dup_poll in D.
    destruct (N.ltb_spec t (d_timer (ss_dup s))) as [Lt|Lt].
    + apply (IH s' _ t R' OK2 M2); auto; [lia|]. now rewrite D.
    + destruct G as [G|[G B]].
      * apply (IH s' _ t R' OK2 M2); auto; [lia|]. rewrite D. right. cbn [d_previous d_timer].
        split; [exact G|]. unfold decay_interval, half_minute. lia.
      * apply (no_more_trace xs s' _ R' OK2). intros i (t' & n & ai & Hin).
        pose proof (monotone_In _ _ _ M2 Hin) as Ge. cbn [fst] in Ge.
        specialize (W' _ _ _ _ Hin). lia.
Qed.

Definition unknown (d : dupfilter) : Prop :=
  ~ In (m_id (msg j)) (d_current d) /\ ~ In (m_id (msg j)) (d_previous d).

(** Until then. *)
Lemma phase_a : forall xs s a now, repr ms s a -> Forall (arrival_ok ms) xs -> monotone now xs ->
  in_window xs -> unknown (ss_dup s) ->
  (forall b l, snd a j = Some (b, l) -> t0 <= b) ->
  complete (count j) (pcs (snd a j)) = false ->
  (forall i, (i < count j)%nat -> In i (pcs (snd a j)) \/ arrived_in xs j i) ->
  exists t, t0 <= t < t0 + half_minute /\ filter of_j (trace s xs) = [(t, received (msg j))].
Proof.
  induction xs as [|x xs IH]; intros s a now R OK M W U B NC Ar.
  { exfalso. assert (complete (count j) (pcs (snd a j)) = true); [|congruence].
    apply complete_spec. intros i Hi. destruct (Ar i Hi) as [H|(t & n & ai & [])]; exact H. }
  inversion OK as [|? ? OK1 OK2]; subst.
  destruct (trace_step s a x xs R OK1) as (s' & R' & D & E). rewrite E, filter_app.
  destruct x as [t ar]. cbn [monotone] in M. destruct M as [M1 M2]. cbn [fst snd] in *.
  pose proof (in_window_cons _ _ W) as W'.
  destruct ar as [j' i n ai|].
  - destruct (Nat.eq_dec j' j) as [->|Hne].
    + pose proof (W t i n ai (or_introl eq_refl)) as Wt.
      unfold abs_out, abs_step in *. cbn [snd fst] in *. unfold held_step in *.
      destruct (complete (count j) (i :: pcs (snd a j))) eqn:Hcmp; cbn [fst snd] in *.
      * exists t. split; [exact Wt|].
        assert (X : dup_out ms t (ss_dup s) (Some j) =
          (mkDup (sadd (m_id (msg j)) (d_current (ss_dup s))) (d_previous (ss_dup s)) (d_timer (ss_dup s)),
           [received (msg j)])).
        { cbn [dup_out]. unfold handle_message.
          assert (msg_expired t (received (msg j)) = false) as -> by (unfold msg_expired; lia).
          rewrite received_id. unfold dup_insert. destruct U as [U1 U2].
          rewrite <- smem_In in U1, U2. destruct (smem _ (d_current _)); [congruence|].
          destruct (smem _ (d_previous _)); [congruence|]. reflexivity. }
        rewrite X in D |- *. cbn [fst snd map filter] in *. unfold of_j at 1. cbn [snd].
        rewrite received_id, N.eqb_refl. cbn [app]. f_equal.
        apply (phase_b xs s' _ t R' OK2 M2); auto; [lia|]. rewrite D. left. cbn [d_current].
        apply sadd_In. now left.
      * cbn [dup_out fst snd map filter app] in *. apply (IH s' _ t R' OK2 M2); auto; cbn [snd].
        -- now rewrite D.
        -- rewrite Nat.eqb_refl. intros b l X. assert (b = born t (snd a j)) as -> by congruence.
           destruct (snd a j) as [[b0 l0]|] eqn:Ea; cbn [born]; [|lia]. now apply (B b0 l0).
        -- rewrite Nat.eqb_refl. exact Hcmp.
        -- rewrite Nat.eqb_refl. cbn [pcs]. intros i' Hi'. destruct (Ar i' Hi') as [Hin|(t' & n' & ai' & Hin)].
           ++ left. now right.
           ++ destruct Hin as [X|Hin].
              ** left. left. congruence.
              ** right. exists t', n', ai'. exact Hin.
    + assert (F : filter of_j (map (pair t) (snd (dup_out ms t (ss_dup s) (abs_out ms a (t, APiece j' i n ai))))) = []).
      { apply (filter_other (t, APiece j' i n ai) s a j' i n ai eq_refl Hne OK1). }
      rewrite F. cbn [app]. destruct OK1 as [Hj' OK1].
      assert (Ea : snd (abs_step ms a (t, APiece j' i n ai)) j = snd a j).
      { unfold abs_step. cbn [snd fst]. destruct (Nat.eqb_spec j j'); [congruence|reflexivity]. }
      apply (IH s' _ t R' OK2 M2); auto; rewrite ?Ea; auto.
      * rewrite D. unfold abs_out. cbn [snd fst].
        destruct (snd (held_step (count j') t (snd a j') i)); [|exact U].
        destruct (dup_other t (ss_dup s) j' Hj' Hne) as (A1 & A2 & A3). unfold unknown.
        rewrite A2, A3. exact U.
      * intros i' Hi'. destruct (Ar i' Hi') as [Hin|(t' & n' & ai' & Hin)]; [now left|right].
        exists t', n', ai'. destruct Hin as [X|Hin]; [congruence|exact Hin].
  - (* some piece is still to come, so this poll is early enough *)
    assert (Tt : t < t0 + half_minute).
    { assert (exists i, (i < count j)%nat /\ ~ In i (pcs (snd a j))) as (i & Hi & Hn).
      { unfold complete in NC. clear - NC. rewrite <- not_true_iff_false, forallb_forall in NC.
        destruct (existsb (fun i => negb (inl i (pcs (snd a j)))) (seq 0 (count j))) eqn:X.
        - apply existsb_exists in X as (i & H1 & H2). apply in_seq in H1. exists i. split; [lia|].
          rewrite <- inl_In. destruct (inl i (pcs (snd a j))); [discriminate|congruence].
        - exfalso. apply NC. intros i Hi. rewrite <- not_true_iff_false, existsb_exists in X.
          destruct (inl i (pcs (snd a j))) eqn:Y; [reflexivity|]. exfalso. apply X. exists i. rewrite Y. auto. }
      destruct (Ar i Hi) as [H|(t' & n & ai & [X|Hin])]; [contradiction|discriminate|].
      pose proof (monotone_In _ _ _ M2 Hin) as Ge. cbn [fst] in Ge. specialize (W' _ _ _ _ Hin). lia. }
    cbn [abs_out snd dup_out map filter app fst] in *.
    assert (Ea : snd (abs_step ms a (t, APoll)) j = snd a j).
    { unfold abs_step. cbn [snd fst]. destruct (t <? fst a); [reflexivity|]. cbn [snd]. unfold gc_held.
      destruct (snd a j) as [[b l]|] eqn:X; [|reflexivity]. specialize (B b l eq_refl).
      unfold half_minute, msg_expiration_threshold in *. destruct (N.ltb_spec (t - b) (30 * 1000000000)); [reflexivity|lia]. }
    apply (IH s' _ t R' OK2 M2); auto; rewrite ?Ea; auto.
    + rewrite D. unfold dup_poll. destruct (t <? d_timer (ss_dup s)); [exact U|]. split; cbn; [tauto|apply U].
    + intros i' Hi'. destruct (Ar i' Hi') as [Hin|(t' & n' & ai' & Hin)]; [now left|right].
      exists t', n', ai'. destruct Hin as [X|Hin]; [congruence|exact Hin].
Qed.

Lemma exactly_once start xs : Forall (arrival_ok ms) xs -> monotone start xs -> in_window xs ->
  (forall i, (i < count j)%nat -> arrived_in xs j i) ->
  exists t, t0 <= t < t0 + half_minute /\ filter of_j (trace (ss_new start) xs) = [(t, received (msg j))].
Proof.
  intros OK M W Ar. apply (phase_a xs (ss_new start) (start + gc_interval, fun _ => None) start); auto.
  - eapply repr_new; eassumption.
  - split; intros [].
  - discriminate.
  - cbn [snd pcs]. pose proof (count_pos ks dst Hdst ms Hms j Hj) as P. destruct (count j); [lia|]. reflexivity.
Qed.
End Session.

(** ** Arbitrary datagrams *)
Section Any.
Variable e : ext.
Variable c : ncrypt.
Variable ks : bytes -> bytes -> bytes.
Variable k : skeys.

(** What became of a filter and the messages put through it. *)
Inductive through (now : N) : dupfilter -> list message -> dupfilter -> Prop :=
| Th_nil d : through now d [] d
| Th_skip d d' m l : fst (handle_message now d m) = d' -> snd (handle_message now d m) = [] ->
    forall d'', through now d' l d'' -> through now d l d''
| Th_pass d d' m l : fst (handle_message now d m) = d' -> snd (handle_message now d m) = [m] ->
    forall d'', through now d' l d'' -> through now d (m :: l) d''.

Lemma handle_message_out now d m : snd (handle_message now d m) = [] \/ snd (handle_message now d m) = [m].
Proof.
  unfold handle_message. destruct (msg_expired now m); [now left|].
  destruct (dup_insert d (m_id m)) as [d' [|]]; cbn; auto.
Qed.
Lemma through_one now d m l d2 : through now (fst (handle_message now d m)) l d2 ->
  through now d (snd (handle_message now d m) ++ l) d2.
Proof.
  intros H. destruct (handle_message_out now d m) as [E|E]; rewrite E; cbn [app].
  - eapply Th_skip; eauto.
  - eapply Th_pass; eauto.
Qed.

Definition put_through (now : N) (d : dupfilter) (out : list message) (o : outcome) : Prop :=
  match o with
  | Handled s' out' | Terminated s' out' _ => exists l, out' = out ++ l /\ through now d l (ss_dup s')
  | Rejected _ => False
  | Panicked => True
  end.
Lemma blocks_through now n : forall bs s out, put_through now (ss_dup s) out (handle_blocks now n s bs out).
Proof.
  induction bs as [|b bs IH]; intros s out; cbn [handle_blocks].
  { exists []. rewrite app_nil_r. split; [reflexivity|constructor]. }
  destruct (register_pkt (ss_ack s) n) as [a|]; [|exact I].
  assert (Keep : forall s1, ss_dup s1 = ss_dup s -> put_through now (ss_dup s) out (handle_blocks now n s1 bs out)).
  { intros s1 <-. apply IH. }
  assert (Msg : forall m h, put_through now (ss_dup s) out
    (handle_blocks now n (mkSsu2 (ss_pkt_num s) a (fst (handle_message now (ss_dup s) m)) h)
        bs (out ++ snd (handle_message now (ss_dup s) m)))).
  { intros m h. specialize (IH (mkSsu2 (ss_pkt_num s) a (fst (handle_message now (ss_dup s) m)) h)
      (out ++ snd (handle_message now (ss_dup s) m))).
    destruct (handle_blocks _ _ _ _ _); auto; destruct IH as (l & -> & T);
      (exists (snd (handle_message now (ss_dup s) m) ++ l); split; [now rewrite app_assoc|now apply through_one]). }
  destruct b as [| | |m|ty id x f|last id num f|nv r| | | | | | | |]; try (apply Keep; reflexivity).
  - specialize (Msg m (ss_frag s)). destruct (handle_message now (ss_dup s) m). exact Msg.
  - destruct (first_fragment now (ss_frag s) ty id x f) as [h [m|]]; cbn [deliver_opt].
    + specialize (Msg m h). destruct (handle_message now (ss_dup s) m). exact Msg.
    + rewrite app_nil_r. now apply Keep.
  - destruct (follow_on_fragment now (ss_frag s) id num last f) as [h [m|]]; cbn [deliver_opt].
    + specialize (Msg m h). destruct (handle_message now (ss_dup s) m). exact Msg.
    + rewrite app_nil_r. now apply Keep.
  - exists []. rewrite app_nil_r. split; [reflexivity|constructor].
Qed.

Definition seen (id t1 : N) (d : dupfilter) : Prop :=
  In id (d_current d) \/ In id (d_previous d) /\ t1 + minute <= d_timer d.
Lemma handle_seen now d m id t1 : seen id t1 d ->
  seen id t1 (fst (handle_message now d m)) /\ (m_id m = id -> snd (handle_message now d m) = []).
Proof.
  intros G. unfold handle_message. destruct (msg_expired now m); [auto|]. unfold dup_insert.
  destruct (smem (m_id m) (d_current d) || smem (m_id m) (d_previous d)) eqn:X; cbn [fst snd]; [auto|].
  split.
  - destruct G as [G|G]; [left|right; exact G]. cbn [d_current]. apply sadd_In. now right.
  - intros <-. apply orb_false_iff in X as [X1 X2].
    destruct G as [G|[G _]]; apply smem_In in G; congruence.
Qed.
Lemma through_seen now d l d' id t1 : through now d l d' -> seen id t1 d ->
  seen id t1 d' /\ Forall (fun m => m_id m <> id) l.
Proof.
  induction 1 as [d|d d1 m l E1 E2 d2 T IH|d d1 m l E1 E2 d2 T IH]; intros G; [auto| |];
    destruct (handle_seen now d m id t1 G) as [G1 G2]; rewrite E1 in G1; destruct (IH G1) as [I1 I2]; auto.
  split; [exact I1|]. constructor; [|exact I2]. intros X. specialize (G2 X). congruence.
Qed.
Lemma pass_seen now d m : snd (handle_message now d m) = [m] -> seen (m_id m) now (fst (handle_message now d m)).
Proof.
  unfold handle_message. destruct (msg_expired now m); [discriminate|]. unfold dup_insert.
  destruct (smem (m_id m) (d_current d) || smem (m_id m) (d_previous d)); cbn [fst snd]; [discriminate|].
  intros _. left. cbn [d_current]. apply sadd_In. now left.
Qed.
Lemma through_nodup now d l d' : through now d l d' ->
  NoDup (map m_id l) /\ Forall (fun m => seen (m_id m) now d') l.
Proof.
  induction 1 as [d|d d1 m l E1 E2 d2 T [IH1 IH2]|d d1 m l E1 E2 d2 T [IH1 IH2]]; [split; constructor|auto|].
  pose proof (pass_seen now d m E2) as G. rewrite E1 in G.
  destruct (through_seen now d1 l d2 _ _ T G) as [G1 G2]. split.
  - cbn [map]. constructor; [|exact IH1]. intros X. apply in_map_iff in X as (m' & X & Hin).
    rewrite Forall_forall in G2. now apply (G2 m' Hin).
  - constructor; auto.
Qed.

Lemma step_through s t o : exists l d, through t (match o with SPoll => dup_poll (ss_dup s) t | _ => ss_dup s end) l d /\
  snd (sess_step e c ks k s (t, o)) = map (pair t) l /\
  (forall s', fst (sess_step e c ks k s (t, o)) = Some s' -> ss_dup s' = d).
Proof.
  unfold sess_step. cbn [snd fst]. destruct o as [p|].
  - unfold receive_datagram. destruct (socket_header ks (k_intro k) p) as [[id pkt]|].
    2:{ exists [], (ss_dup s). split; [constructor|]. split; [reflexivity|]. intros s' X. cbn in X. congruence. }
    unfold handle_packet. destruct (length pkt <? 16)%nat.
    { exists [], (ss_dup s). split; [constructor|]. split; [reflexivity|]. discriminate. }
    destruct (open_packet e c ks k pkt) as [[n bs]|].
    2:{ exists [], (ss_dup s). split; [constructor|]. split; [reflexivity|]. intros s' X. cbn in X. congruence. }
    pose proof (blocks_through t n bs s []) as H.
    destruct (handle_blocks t n s bs []) as [s' out|s'|s' out r|]; cbn [fst snd].
    + destruct H as (l & -> & T). exists l, (ss_dup s'). split; [exact T|]. split; [reflexivity|]. congruence.
    + destruct H.
    + destruct H as (l & -> & T). exists l, (ss_dup s'). split; [exact T|]. split; [reflexivity|]. discriminate.
    + exists [], (ss_dup s). split; [constructor|]. split; [reflexivity|]. discriminate.
  - exists [], (dup_poll (ss_dup s) t). split; [constructor|]. split; [reflexivity|].
    intros s' X. cbn [fst] in X. assert (s' = ss_poll t s) as -> by congruence. reflexivity.
Qed.

(** Two messages with the same id are handed on a minute apart or more. *)
Definition spaced (l : list (N * message)) : Prop :=
  forall a x b y c, l = a ++ x :: b ++ y :: c -> m_id (snd x) = m_id (snd y) -> fst x + minute <= fst y.

Lemma trace_seen : forall ops s now id t1, monotone now ops -> t1 <= now ->
  seen id t1 (ss_dup s) \/ t1 + minute <= now ->
  forall x, In x (sess_trace e c ks k s ops) -> m_id (snd x) = id -> t1 + minute <= fst x.
Proof.
  induction ops as [|[t o] ops IH]; intros s now id t1 M T G x Hx Hid; [destruct Hx|].
  cbn [monotone] in M. destruct M as [M1 M2]. cbn [sess_trace] in Hx.
  destruct (step_through s t o) as (l & d & Th & So & Sd).
  destruct (sess_step e c ks k s (t, o)) as [s' out] eqn:E. cbn [fst snd] in So, Sd. subst out.
  assert (G' : seen id t1 (match o with SPoll => dup_poll (ss_dup s) t | _ => ss_dup s end) \/ t1 + minute <= t).
  { destruct G as [G|G]; [|right; lia]. destruct o as [p|]; [now left|]. unfold dup_poll.
    destruct (N.ltb_spec t (d_timer (ss_dup s))); [now left|]. destruct G as [G|[G B]]; [|right; lia].
    left. right. cbn [d_previous d_timer]. split; [exact G|]. unfold decay_interval, minute. lia. }
  apply in_app_or in Hx as [Hx|Hx].
  - apply in_map_iff in Hx as (m & <- & Hm). cbn [fst snd] in *.
    destruct G' as [G'|G']; [|exact G']. exfalso.
    destruct (through_seen t _ l d id t1 Th G') as [_ F]. rewrite Forall_forall in F. now apply (F m Hm).
  - destruct s' as [s'|]; [|destruct Hx]. apply (IH s' t id t1 M2); auto; [lia|].
    destruct G' as [G'|G']; [left|right; exact G'].
    rewrite (Sd s' eq_refl). now apply (through_seen t _ l d id t1 Th).
Qed.

Lemma trace_spaced : forall ops s now, monotone now ops -> spaced (sess_trace e c ks k s ops).
Proof.
  induction ops as [|[t o] ops IH]; intros s now M a x b y c' E Hid; cbn [sess_trace] in E.
  { destruct a; discriminate. }
  cbn [monotone] in M. destruct M as [M1 M2].
  destruct (step_through s t o) as (l & d & Th & So & Sd).
  destruct (sess_step e c ks k s (t, o)) as [s' out] eqn:Es. cbn [fst snd] in So, Sd. subst out.
  destruct (through_nodup t _ l d Th) as [ND F].
  set (rest := match s' with Some s' => sess_trace e c ks k s' ops | None => [] end) in *.
  assert (Hrest : forall m z, In m l -> In z rest -> m_id m = m_id (snd z) -> t + minute <= fst z).
  { intros m z Hm Hz Hi. unfold rest in Hz. destruct s' as [s'|]; [|destruct Hz].
    rewrite Forall_forall in F. specialize (F m Hm). rewrite <- (Sd s' eq_refl) in F.
    apply (trace_seen ops s' t (m_id m) t M2 (N.le_refl t) (or_introl F) z Hz). congruence. }
  assert (Sp : spaced rest).
  { unfold rest. destruct s' as [s'|]; [now apply (IH s' t)|]. intros [|? ?] ? ? ? ?; discriminate. }
  clearbody rest. clear Th Sd F Es IH M2.
  revert a E. induction l as [|m l IHl]; intros a E; cbn [map app] in E.
  - now apply (Sp a x b y c').
  - destruct a as [|a0 a]; cbn [app] in E.
    + assert (x = (t, m) /\ b ++ y :: c' = map (pair t) l ++ rest) as [-> E'] by (split; congruence).
      assert (Hy : In y (map (pair t) l ++ rest)) by (rewrite <- E'; apply in_or_app; right; now left).
      cbn [fst snd] in *. apply in_app_or in Hy as [Hy|Hy].
      * exfalso. apply in_map_iff in Hy as (m' & <- & Hm'). cbn [snd] in Hid.
        cbn [map] in ND. inversion ND as [|? ? N1 N2]. apply N1. rewrite Hid. now apply in_map.
      * apply (Hrest m y); auto. now left.
    + assert (map (pair t) l ++ rest = a ++ x :: b ++ y :: c') as E' by congruence.
      cbn [map] in ND. inversion ND as [|? ? N1 N2]; subst. apply (IHl N2) with (a := a); auto.
      intros m' z Hm'. apply Hrest. now right.
Qed.

(** ** Incomplete messages do not stay *)
Definition fh_ok (now : N) (h : fraghandler) : Prop :=
  fh_timer h <= now + gc_interval /\
  Forall (fun x => fh_timer h <= f_created (snd x) + half_minute + gc_interval) (fh_messages h).
Lemma Forall_nput {V} (P : N * V -> Prop) id (v : V) m : P (id, v) -> Forall P m -> Forall P (nput id v m).
Proof.
  induction m as [|[k' v'] m IH]; intros Hp Hm; cbn [nput]; [auto|].
  inversion Hm as [|? ? H1 H2]; subst.
  destruct (id <? k'); [constructor; auto|]. destruct (id =? k'); constructor; auto.
Qed.
Lemma Forall_ndel {V} (P : N * V -> Prop) id (m : nmap V) : Forall P m -> Forall P (ndel id m).
Proof.
  induction m as [|[k' v'] m IH]; intros Hm; cbn [ndel]; [auto|].
  inversion Hm as [|? ? H1 H2]; subst. destruct (id =? k'); auto.
Qed.
Lemma entry_ok now now' h id : now' <= now -> fh_ok now' h ->
  fh_timer h <= f_created (entry now id h) + half_minute + gc_interval.
Proof.
  intros Hn [H1 H2]. unfold entry. destruct (nget id (fh_messages h)) as [f|] eqn:E.
  - apply nget_In in E. rewrite Forall_forall in H2. now apply (H2 (id, f)).
  - cbn [frag_default f_created]. unfold half_minute, gc_interval in *. lia.
Qed.
Lemma finish_ok now h id f : fh_ok now h -> fh_timer h <= f_created f + half_minute + gc_interval ->
  fh_ok now (fst (finish id f h)).
Proof.
  intros [H1 H2] Hf. unfold finish. destruct (is_ready f); cbn [fst]; split; cbn [fh_timer fh_messages]; auto.
  - now apply Forall_ndel.
  - now apply Forall_nput.
Qed.
Definition out_ok (now : N) (o : outcome) : Prop :=
  match o with Handled s _ | Rejected s | Terminated s _ _ => fh_ok now (ss_frag s) | Panicked => True end.
Lemma blocks_ok now n : forall bs s out, fh_ok now (ss_frag s) -> out_ok now (handle_blocks now n s bs out).
Proof.
  induction bs as [|b bs IH]; intros s out H; cbn [handle_blocks]; [exact H|].
  destruct (register_pkt (ss_ack s) n) as [a|]; [|exact I].
  destruct b as [| | |m|ty id x f|last id num f|nv r| | | | | | | |]; try (apply IH; exact H).
  - destruct (handle_message now (ss_dup s) m). apply IH. exact H.
  - unfold first_fragment. cbv zeta.
    pose proof (finish_ok now (ss_frag s) id (mkFrag (nput 0 f (f_frags (entry now id (ss_frag s))))
      (f_num (entry now id (ss_frag s))) (Some (ty, id, x)) (f_created (entry now id (ss_frag s)))) H
      (entry_ok now now _ id (N.le_refl _) H)) as Fo.
    destruct (finish _ _ _) as [h r]. destruct (deliver_opt now (ss_dup s) r). apply IH. exact Fo.
  - unfold follow_on_fragment. cbv zeta.
    pose proof (finish_ok now (ss_frag s) id (mkFrag (nput num f (f_frags (entry now id (ss_frag s))))
      (if last then Some (num + 1) else f_num (entry now id (ss_frag s))) (f_info (entry now id (ss_frag s)))
      (f_created (entry now id (ss_frag s)))) H
      (entry_ok now now _ id (N.le_refl _) H)) as Fo.
    destruct (finish _ _ _) as [h r]. destruct (deliver_opt now (ss_dup s) r). apply IH. exact Fo.
  - exact H.
Qed.
Lemma fh_ok_later now now' h : now <= now' -> fh_ok now h -> fh_ok now' h.
Proof. intros L [H1 H2]. split; [lia|exact H2]. Qed.
Lemma poll_ok now h : fh_ok now h -> fh_ok now (fh_poll h now) /\
  Forall (fun x => now < f_created (snd x) + half_minute + gc_interval) (fh_messages (fh_poll h now)).
Proof.
  intros [H1 H2]. unfold fh_poll. destruct (N.ltb_spec now (fh_timer h)) as [Lt|Lt].
  - split; [now split|]. eapply Forall_impl; [|exact H2]. cbv beta. intros x Hx. lia.
  - cbn [fh_timer fh_messages]. rewrite !Forall_forall.
    assert (X : forall x, In x (filter (fun x => now - f_created (snd x) <? msg_expiration_threshold) (fh_messages h)) ->
      now < f_created (snd x) + half_minute).
    { intros x Hx. apply filter_In in Hx as [_ Hx]. unfold msg_expiration_threshold, half_minute in *. lia. }
    split; [split; [cbn; lia|]; apply Forall_forall; cbn [fh_timer fh_messages]|];
      intros x Hx; specialize (X x Hx); lia.
Qed.
Lemma step_ok s t o s' : fh_ok t (ss_frag s) -> fst (sess_step e c ks k s (t, o)) = Some s' -> fh_ok t (ss_frag s').
Proof.
  intros H. unfold sess_step. cbn [snd fst]. destruct o as [p|].
  - assert (X : out_ok t (receive_datagram e c ks k t s p)).
    { unfold receive_datagram. destruct (socket_header ks (k_intro k) p) as [[id pkt]|]; [|exact H].
      unfold handle_packet. destruct (length pkt <? 16)%nat; [exact I|].
      destruct (open_packet e c ks k pkt) as [[n bs]|]; [|exact H]. now apply blocks_ok. }
    destruct (receive_datagram e c ks k t s p); cbn [fst out_ok] in *; try discriminate; intros E;
      assert (s0 = s') as <- by congruence; exact X.
  - cbn [fst]. intros E. assert (s' = ss_poll t s) as -> by congruence. now apply poll_ok.
Qed.
Lemma run_ok : forall ops s now s', monotone now ops -> fh_ok now (ss_frag s) ->
  sess_state e c ks k s ops = Some s' -> forall last, (forall x, In x ops -> fst x <= last) -> now <= last ->
  fh_ok last (ss_frag s').
Proof.
  induction ops as [|[t o] ops IH]; intros s now s' M H E last Hl Hn; cbn [sess_state] in E.
  - assert (s = s') as <- by congruence. now apply (fh_ok_later now).
  - cbn [monotone] in M. destruct M as [M1 M2].
    destruct (fst (sess_step e c ks k s (t, o))) as [s1|] eqn:E1; [|discriminate].
    apply (IH s1 t s' M2); auto.
    + apply (step_ok s t o); [|exact E1]. now apply (fh_ok_later now).
    + intros x Hx. apply Hl. now right.
    + apply (Hl (t, o)). now left.
Qed.
Lemma state_app : forall a b s, sess_state e c ks k s (a ++ b) =
  match sess_state e c ks k s a with Some s' => sess_state e c ks k s' b | None => None end.
Proof.
  induction a as [|x a IH]; intros b s; [reflexivity|]. cbn [app sess_state].
  destruct (fst (sess_step e c ks k s x)); auto.
Qed.
Lemma dropped_after_poll start ops t s' : monotone start (ops ++ [(t, SPoll)]) ->
  sess_state e c ks k (ss_new start) (ops ++ [(t, SPoll)]) = Some s' ->
  Forall (fun x => t < f_created (snd x) + half_minute + gc_interval) (fh_messages (ss_frag s')).
Proof.
  intros M E. rewrite state_app in E.
  destruct (sess_state e c ks k (ss_new start) ops) as [s1|] eqn:E1; [|discriminate].
  destruct (monotone_split ops (t, SPoll) [] start M) as (A1 & A2 & A3 & A4). cbn [fst] in *.
  assert (H : fh_ok t (ss_frag s1)).
  { apply (run_ok ops (ss_new start) start s1 A1); auto. split; [cbn; lia|constructor]. }
  cbn [sess_state sess_step fst snd] in E. assert (s' = ss_poll t s1) as -> by congruence.
  now apply poll_ok.
Qed.
End Any.
