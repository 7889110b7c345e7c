(** Lemmas about the inbound half of the stream model. *)
From Coq Require Import List NArith Lia Bool ZifyBool ZifyNat ZifyN.
From Verif Require Import ListUtil NMap StreamModel StreamSpec.
Import ListNotations.
Open Scope N_scope.

Section Inbound.
Variable base : N.
Variable cs : list bytes.

Definition honest (seq : N) (p : bytes) : Prop :=
  seq <= base \/ nth_error cs (N.to_nat (seq - base - 1)) = Some p.

(** [rcv] = sequence numbers that arrived with data, [k] = number of messages moved to the
    ready queue so far. *)
Record IInv (rcv : list N) (i : inbound) (k : nat) : Prop := {
  iv_sorted : sorted (i_missing i);
  iv_base : base + N.of_nat k <= i_seq i;
  iv_miss : forall s, In s (i_missing i) -> base + N.of_nat k < s < i_seq i;
  iv_first : match i_missing i with
             | [] => base + N.of_nat k = i_seq i
             | m :: _ => m = base + N.of_nat k + 1
             end;
  iv_pend : forall s, base + N.of_nat k < s -> s <= i_seq i ->
              ~ In s (i_missing i) -> exists p, nget s (i_pending i) = Some p;
  iv_key : forall s p, nget s (i_pending i) = Some p ->
              s <= i_seq i /\ ~ In s (i_missing i) /\ honest s p;
  iv_rcv : forall s, base < s -> (In s rcv <-> s <= i_seq i /\ ~ In s (i_missing i));
  iv_len : (k <= length cs)%nat
}.

Lemma IInv_new : IInv [] (inbound_new base) 0.
Proof.
  constructor; cbn; try constructor; try tauto; try lia; try discriminate.
Qed.

Lemma mark_missing_In : forall gap pend ms s,
  In s (mark_missing gap pend ms) <-> In s ms \/ (In s gap /\ nget s pend = None).
Proof.
  unfold mark_missing. induction gap as [|g gap IH]; cbn [fold_left In]; intros pend ms s; [tauto|].
  rewrite IH. unfold nhas. destruct (nget g pend) eqn:E.
  - split; [intuition|]. intros [?|[[->|?] ?]]; auto. congruence.
  - rewrite sadd_In. split; [intuition; subst; auto|]. intuition.
Qed.

Lemma mark_missing_sorted : forall gap pend ms, sorted ms -> sorted (mark_missing gap pend ms).
Proof.
  unfold mark_missing. induction gap as [|g gap IH]; cbn [fold_left]; intros pend ms Hs; auto.
  apply IH. destruct (nhas g pend); auto. now apply sadd_sorted.
Qed.

Lemma drain_spec : forall fuel next pend ready pend' ready' hi k,
  drain fuel next pend ready = (pend', ready') ->
  (length pend <= fuel)%nat ->
  next = base + N.of_nat k + 1 ->
  (forall s p, nget s pend = Some p -> s <= hi /\ honest s p) ->
  exists k' X,
    (k <= k')%nat /\ ready' = ready ++ X /\ firstn k' cs = firstn k cs ++ X /\
    (forall s, base + N.of_nat k < s <= base + N.of_nat k' -> exists p, nget s pend = Some p) /\
    nget (base + N.of_nat k' + 1) pend' = None /\
    (forall s, nget s pend' = if (next <=? s) && (s <=? base + N.of_nat k') then None else nget s pend)
    /\ (base + N.of_nat k' <= N.max hi (base + N.of_nat k)) /\ (k <= length cs -> k' <= length cs)%nat.
Proof.
  induction fuel as [|fuel IH]; cbn [drain]; intros next pend ready pend' ready' hi k H Hf Hn Hk.
  - injection H as <- <-. destruct pend; [|cbn in Hf; lia].
    exists k, []. rewrite !app_nil_r. repeat split; auto; try lia.
    intros s. cbn. destruct (_ && _); auto.
  - destruct (nget next pend) as [p|] eqn:E.
    + assert (Hdom : In next (nkeys pend)) by (apply nget_Some_nkeys; eauto).
      pose proof (ndel_length_lt _ _ _ Hdom) as Hlt.
      destruct (Hk _ _ E) as [Hhi Hh].
      apply IH with (hi := hi) (k := S k) in H; [|lia|lia|].
      2:{ intros s q Hq. destruct (N.eq_dec s next) as [->|Hne].
          - rewrite nget_ndel_same in Hq. discriminate.
          - rewrite nget_ndel_other in Hq by auto. eauto. }
      destruct H as (k' & X & Hkk & Hr & Hfst & Hall & Hnone & Hg & Hmax & Hlen).
      destruct Hh as [Hh|Hh]; [lia|].
      replace (N.to_nat (next - base - 1)) with k in Hh by lia.
      exists k', (p :: X). repeat split; try lia.
      * rewrite Hr, <- app_assoc. reflexivity.
      * rewrite Hfst, (firstn_snoc _ _ _ _ Hh), <- app_assoc. reflexivity.
      * intros s Hs. destruct (N.eq_dec s next) as [->|Hne]; [eauto|].
        destruct (Hall s ltac:(lia)) as [q Hq]. rewrite nget_ndel_other in Hq by auto. eauto.
      * exact Hnone.
      * intros s. rewrite Hg. destruct (N.eq_dec s next) as [->|Hne].
        -- rewrite nget_ndel_same.
           replace ((next <=? next) && (next <=? base + N.of_nat k')) with true by lia. now destruct (_ && _).
        -- rewrite nget_ndel_other by auto.
           replace (next + 1 <=? s) with (next <=? s) by lia. reflexivity.
      * intros _. apply Hlen.
        assert (k < length cs)%nat by (apply nth_error_Some; congruence). lia.
    + injection H as <- <-. exists k, []. rewrite !app_nil_r. repeat split; auto; try lia.
      * rewrite <- Hn. exact E.
      * intros s. destruct ((next <=? s) && (s <=? base + N.of_nat k)) eqn:E2; auto. lia.
Qed.

Lemma sdel_nil_miss : forall s l, sdel s l = [] -> forall x, In x l -> x = s.
Proof.
  intros s l H x Hx. destruct (N.eq_dec x s); auto.
  assert (In x (sdel s l)) by (apply sdel_In; auto). rewrite H in *. contradiction.
Qed.

Lemma sdel_notin : forall s l, ~ In s l -> sdel s l = l.
Proof.
  induction l as [|x t IH]; cbn; auto. intros H. destruct (N.eqb_spec s x).
  - subst. exfalso; auto.
  - f_equal. apply IH. auto.
Qed.

Lemma handle_packet_inv : forall rcv i k seq p i',
  IInv rcv i k -> honest seq p ->
  handle_packet i seq p = Some i' ->
  exists k' X, (k <= k')%nat /\ IInv (seq :: rcv) i' k' /\
    i_ready i' = i_ready i ++ X /\ firstn k' cs = firstn k cs ++ X /\
    i_seq i' = N.max (i_seq i) seq /\ i_close i' = i_close i.
Proof.
  intros rcv i k seq p i' Hi Hh H. destruct Hi as [Hso Hb Hm Hf Hp Hkey Hr Hl].
  unfold handle_packet in H.
  destruct (N.eqb_spec seq (i_seq i + 1)) as [Hseq|Hnseq].
  - (* next in order *)
    assert (Hni : ~ In seq (i_missing i)) by (intros Hin; apply Hm in Hin; lia).
    rewrite (sdel_notin _ _ Hni) in H.
    destruct Hh as [Hh|Hh]; [lia|].
    destruct (i_missing i) as [|m ms] eqn:Em.
    + injection H as <-. exists (S k), [p].
      replace (N.to_nat (seq - base - 1)) with k in Hh by lia.
      assert (k < length cs)%nat by (apply nth_error_Some; congruence).
      split; [lia|]. split; [|cbn; repeat split; auto; [now apply firstn_snoc|lia]].
      constructor; cbn [i_missing i_seq i_pending]; try lia; auto.
      * intros s [].
      * intros s q Hq. destruct (Hkey _ _ Hq) as (? & ? & ?). split; [lia|]. auto.
      * intros s Hs. cbn [In]. rewrite Hr by auto. split; [intuition; lia|].
        intros [Hle _]. destruct (N.eq_dec seq s); auto. right. split; [lia|auto].
    + injection H as <-. exists k, []. rewrite !app_nil_r.
      split; [lia|]. split; [|cbn; repeat split; auto; lia].
      constructor; cbn [i_missing i_seq i_pending]; try lia; auto.
      * intros s Hs. apply Hm in Hs. lia.
      * intros s H1 H2 H3. destruct (N.eq_dec s seq) as [->|Hne].
        -- rewrite nget_nput_same. eauto.
        -- rewrite nget_nput_other by auto. apply Hp; auto. lia.
      * intros s q Hq. destruct (N.eq_dec s seq) as [->|Hne].
        -- rewrite nget_nput_same in Hq. injection Hq as <-. split; [lia|]. split; auto. now right.
        -- rewrite nget_nput_other in Hq by auto. destruct (Hkey _ _ Hq) as (? & ? & ?).
           split; [lia|]. auto.
      * intros s Hs. change (In s (seq :: rcv)) with (seq = s \/ In s rcv). rewrite Hr by auto.
        split.
        -- intros [<-|[? ?]]; split; auto; try lia.
        -- intros [Hle Hnm]. destruct (N.eq_dec seq s); auto. right. split; [lia|auto].
  - destruct (N.ltb_spec (i_seq i + 1) seq) as [Hgt|Hle].
    + (* gap *)
      destruct (N.ltb_spec MAX_WINDOW_LOOKAHEAD (seq - i_seq i - 1)) as [Hla|Hla]; [discriminate|].
      injection H as <-. exists k, []. rewrite !app_nil_r.
      split; [lia|]. split; [|cbn; repeat split; auto; lia].
      set (gap := nseq (i_seq i + 1) (N.to_nat (seq - i_seq i - 1))).
      assert (Hgap : forall s, In s gap <-> i_seq i < s < seq).
      { intros s. unfold gap. rewrite nseq_In. lia. }
      assert (Hmm : forall s, In s (mark_missing gap (i_pending i) (i_missing i)) <->
                              In s (i_missing i) \/ i_seq i < s < seq).
      { intros s. rewrite mark_missing_In, Hgap. split; [intuition|].
        intros [?|?]; auto. right. split; auto.
        destruct (nget s (i_pending i)) eqn:E; auto. apply Hkey in E. lia. }
      assert (Hms : forall s, In s (sdel seq (mark_missing gap (i_pending i) (i_missing i))) <->
                              In s (i_missing i) \/ i_seq i < s < seq).
      { intros s. rewrite sdel_In, Hmm. split; [intuition|]. intros [Hin|?].
        - split; auto. apply Hm in Hin. lia.
        - split; auto. lia. }
      constructor; cbn [i_missing i_seq i_pending].
      * apply sdel_sorted, mark_missing_sorted; auto.
      * lia.
      * intros s Hs. apply Hms in Hs as [Hs|Hs]; [apply Hm in Hs; lia|lia].
      * set (l := sdel seq (mark_missing gap (i_pending i) (i_missing i))) in *.
        assert (Hsl : sorted l) by (apply sdel_sorted, mark_missing_sorted; auto).
        assert (Hin : In (base + N.of_nat k + 1) l).
        { apply Hms. destruct (i_missing i) as [|m ms]; [right; lia|left; left; lia]. }
        destruct l as [|m ms]; [contradiction|].
        pose proof (sorted_head_min _ _ _ Hsl Hin) as Hle1.
        assert (Hm1 : In m (m :: ms)) by now left.
        apply Hms in Hm1 as [Hm1|Hm1]; [apply Hm in Hm1; lia|lia].
      * intros s H1 H2 H3. destruct (N.eq_dec s seq) as [->|Hne].
        -- rewrite nget_nput_same. eauto.
        -- rewrite nget_nput_other by auto. rewrite Hms in H3. apply Hp; auto; lia.
      * intros s q Hq. destruct (N.eq_dec s seq) as [->|Hne].
        -- rewrite nget_nput_same in Hq. injection Hq as <-. split; [lia|]. split; auto.
           rewrite Hms. intros [Hin|?]; [apply Hm in Hin; lia|lia].
        -- rewrite nget_nput_other in Hq by auto. destruct (Hkey _ _ Hq) as (? & ? & ?).
           split; [lia|]. split; auto. rewrite Hms. intros [?|?]; [auto|lia].
      * intros s Hs. change (In s (seq :: rcv)) with (seq = s \/ In s rcv).
        rewrite Hr, Hms by auto. split.
        -- intros [<-|[? ?]]; split; try lia; intros [Hin|?]; try lia; auto. apply Hm in Hin. lia.
        -- intros [Hle1 Hnm]. destruct (N.eq_dec seq s); auto. right. split; [|auto].
           destruct (N.le_gt_cases s (i_seq i)); auto. exfalso. apply Hnm. right. lia.
      * auto.
    + (* at or below the highest *)
      destruct (i_missing i) as [|m ms] eqn:Em.
      * injection H as <-. exists k, []. rewrite !app_nil_r.
        split; [lia|]. split; [|cbn; repeat split; auto; lia].
        constructor; cbn [i_missing i_seq i_pending]; auto.
        -- intros s H1 H2 H3. lia.
        -- intros s q Hq. destruct (N.eq_dec s seq) as [->|Hne].
           ++ rewrite nget_nput_same in Hq. injection Hq as <-. split; [lia|]. auto.
           ++ rewrite nget_nput_other in Hq by auto. auto.
        -- intros s Hs. cbn [In]. rewrite Hr by auto. split; [intuition; lia|intuition].
      * destruct (N.eqb_spec m seq) as [Heq|Hne].
        -- revert Hf; subst m; intros Hf. destruct (drain _ _ _ _) as [pend ready] eqn:Ed. injection H as <-.
           change (if seq =? seq then sdel seq ms else seq :: sdel seq ms)
             with (sdel seq (seq :: ms)).
           destruct Hh as [Hh|Hh]; [lia|].
           replace (N.to_nat (seq - base - 1)) with k in Hh by lia.
           assert (Hkl : (k < length cs)%nat) by (apply nth_error_Some; congruence).
           apply drain_spec with (hi := i_seq i) (k := S k) in Ed;
             [|lia|lia|intros s q Hq; destruct (Hkey _ _ Hq) as (? & ? & ?); auto].
           destruct Ed as (k' & X & Hkk & Hrd & Hfst & Hall & Hnone & Hg & Hmax & Hlen).
           assert (Hin0 : In seq (seq :: ms)) by now left.
           pose proof (Hm _ Hin0) as Hmseq.
           assert (Hdel : forall s, In s (sdel seq (seq :: ms)) <-> s <> seq /\ In s (seq :: ms))
             by (intros; apply sdel_In).
           assert (Hgtk : forall s, In s (sdel seq (seq :: ms)) -> base + N.of_nat k' < s).
           { intros s Hs. apply Hdel in Hs as [Hs1 Hs2]. pose proof (Hm _ Hs2).
             destruct (N.le_gt_cases s (base + N.of_nat k')); auto.
             destruct (Hall s ltac:(lia)) as [q Hq]. apply Hkey in Hq. tauto. }
           exists k', (p :: X). split; [lia|]. split; [|cbn [i_ready i_seq i_close]; repeat split].
           ++ constructor; cbn [i_missing i_seq i_pending].
              ** now apply sdel_sorted.
              ** lia.
              ** intros s Hs. split; [now apply Hgtk|]. apply Hdel in Hs as [_ Hs]. apply Hm in Hs. lia.
              ** assert (Hsl : sorted (sdel seq (seq :: ms))) by now apply sdel_sorted.
                 set (l := sdel seq (seq :: ms)) in *.
                 (* position k'+1: either beyond the highest or missing *)
                 assert (Hnx : base + N.of_nat k' + 1 <= i_seq i -> In (base + N.of_nat k' + 1) l).
                 { intros Hle1. apply Hdel. split; [lia|].
                   destruct (in_dec N.eq_dec (base + N.of_nat k' + 1) (seq :: ms)) as [|Hni]; auto.
                   exfalso. destruct (Hp (base + N.of_nat k' + 1) ltac:(lia) Hle1 Hni) as [q Hq].
                   rewrite Hg in Hnone.
                   destruct (_ && _) eqn:E2 in Hnone; [lia|congruence]. }
                 destruct l as [|m' ms'].
                 --- destruct (N.le_gt_cases (base + N.of_nat k' + 1) (i_seq i)) as [Hc|Hc]; [|lia].
                     apply Hnx in Hc. contradiction.
                 --- assert (Hm' : In m' (m' :: ms')) by now left.
                     pose proof (Hgtk _ Hm') as Hg'.
                     assert (m' < i_seq i) by (apply Hdel in Hm' as [_ Hm']; apply Hm in Hm'; lia).
                     pose proof (sorted_head_min _ _ _ Hsl (Hnx ltac:(lia))). lia.
              ** intros s H1 H2 H3.
                 assert (Hni : ~ In s (seq :: ms)) by (intros Hin; apply H3, Hdel; split; auto; lia).
                 destruct (Hp s ltac:(lia) H2 Hni) as [q Hq]. exists q. rewrite Hg.
                 destruct (_ && _) eqn:E2; [lia|auto].
              ** intros s q Hq. rewrite Hg in Hq. destruct (_ && _); [discriminate|].
                 destruct (Hkey _ _ Hq) as (? & ? & ?). split; [auto|]. split; auto.
                 intros Hin. apply Hdel in Hin as [_ Hin]. auto.
              ** intros s Hs. change (In s (seq :: rcv)) with (seq = s \/ In s rcv).
                 rewrite Hr by auto. rewrite Hdel. split.
                 --- intros [<-|[? ?]]; split; try lia; intros [? ?]; auto.
                 --- intros [? ?]. destruct (N.eq_dec seq s); auto. right. split; auto.
              ** lia.
           ++ rewrite Hrd, <- app_assoc. reflexivity.
           ++ rewrite Hfst, (firstn_snoc _ _ _ _ Hh), <- app_assoc. reflexivity.
           ++ lia.
        -- injection H as <-. exists k, []. rewrite !app_nil_r.
           change (if seq =? m then sdel seq ms else m :: sdel seq ms)
             with (sdel seq (m :: ms)).
           split; [lia|]. split; [|cbn; repeat split; auto; lia].
           assert (Hdel : forall s, In s (sdel seq (m :: ms)) <-> s <> seq /\ In s (m :: ms))
             by (intros; apply sdel_In).
           constructor; cbn [i_missing i_seq i_pending]; auto.
           ++ now apply sdel_sorted.
           ++ intros s Hs. apply Hdel in Hs as [_ Hs]. auto.
           ++ cbn [sdel]. destruct (N.eqb_spec seq m); [congruence|auto].
           ++ intros s H1 H2 H3. destruct (N.eq_dec s seq) as [->|Hne'].
              ** rewrite nget_nput_same. eauto.
              ** rewrite nget_nput_other by auto. apply Hp; auto.
                 intros Hin. apply H3, Hdel. auto.
           ++ intros s q Hq. rewrite Hdel. destruct (N.eq_dec s seq) as [->|Hne'].
              ** rewrite nget_nput_same in Hq. injection Hq as <-. split; [lia|]. split; [tauto|auto].
              ** rewrite nget_nput_other in Hq by auto. destruct (Hkey _ _ Hq) as (? & ? & ?).
                 split; [auto|]. split; [tauto|auto].
           ++ intros s Hs. change (In s (seq :: rcv)) with (seq = s \/ In s rcv).
              rewrite Hr, Hdel by auto. split.
              ** intros [<-|[? ?]]; split; try lia; tauto.
              ** intros [? ?]. destruct (N.eq_dec seq s); auto. right. split; auto.
Qed.

Lemma handle_packet_none : forall i seq p,
  handle_packet i seq p = None <-> i_seq i + 1 + MAX_WINDOW_LOOKAHEAD < seq.
Proof.
  intros i seq p. unfold handle_packet, MAX_WINDOW_LOOKAHEAD.
  destruct (N.eqb_spec seq (i_seq i + 1)).
  - destruct (sdel _ _); split; try discriminate; lia.
  - destruct (N.ltb_spec (i_seq i + 1) seq).
    + destruct (N.ltb_spec 512 (seq - i_seq i - 1)); split; try discriminate; auto; lia.
    + destruct (i_missing i); [split; [discriminate|lia]|].
      destruct (_ =? _); [destruct (drain _ _ _ _)|]; split; try discriminate; lia.
Qed.
End Inbound.
