(** Stream-level lemmas: what is sent (acknowledgements, retained packets, payloads). *)
From Coq Require Import List NArith Arith Lia Bool ZifyBool ZifyNat ZifyN.
From Verif Require Import ListUtil NMap StreamModel StreamSpec StreamInProofs StreamProofs.
Import ListNotations.
Open Scope N_scope.

(** ** Truthful acknowledgements *)
Section Acks.
Variable base : N.

Record RInv (rcv : list N) (i : inbound) : Prop := {
  rv_sorted : sorted (i_missing i);
  rv_base : base <= i_seq i;
  rv_miss : forall s, In s (i_missing i) -> base < s < i_seq i;
  rv_key : forall s p, nget s (i_pending i) = Some p -> s <= i_seq i /\ ~ In s (i_missing i);
  rv_rcv : forall s, base < s -> (In s rcv <-> s <= i_seq i /\ ~ In s (i_missing i))
}.

Lemma RInv_new : RInv [] (inbound_new base).
Proof. constructor; cbn; try constructor; try tauto; try lia; try discriminate. Qed.

Lemma drain_sub : forall fuel next pend ready pend' ready',
  drain fuel next pend ready = (pend', ready') ->
  forall s p, nget s pend' = Some p -> nget s pend = Some p.
Proof.
  induction fuel as [|fuel IH]; cbn [drain]; intros next pend ready pend' ready' H s p Hg.
  - apply pair_equal_spec in H as [-> _]. auto.
  - destruct (nget next pend) as [q|] eqn:E.
    + eapply IH in H; [|exact Hg]. destruct (N.eq_dec s next) as [->|Hne].
      * rewrite nget_ndel_same in H. discriminate.
      * now rewrite nget_ndel_other in H by auto.
    + apply pair_equal_spec in H as [-> _]. auto.
Qed.

Lemma handle_packet_RInv : forall rcv i seq p i',
  RInv rcv i -> handle_packet i seq p = Some i' -> RInv (seq :: rcv) i'.
Proof.
  intros rcv i seq p i' [Hso Hb Hm Hkey Hr] H. unfold handle_packet in H.
  assert (Hcons : forall s, In s (seq :: rcv) <-> s = seq \/ In s rcv) by (intros; cbn; intuition).
  destruct (N.eqb_spec seq (i_seq i + 1)) as [Hseq|Hnseq].
  - assert (Hni : ~ In seq (i_missing i)) by (intros Hin; apply Hm in Hin; lia).
    rewrite (sdel_notin _ _ Hni) in H.
    assert (Hrr : forall s, base < s -> (In s (seq :: rcv) <-> s <= seq /\ ~ In s (i_missing i))).
    { intros s Hs. rewrite Hcons, Hr by auto. split.
      - intros [->|[? ?]]; split; auto; lia.
      - intros [? ?]. destruct (N.eq_dec s seq); auto. right. split; auto. lia. }
    destruct (i_missing i) as [|m ms] eqn:Em; injection H as <-;
      constructor; cbn [i_missing i_seq i_pending]; auto; try lia.
    + intros s [].
    + intros s q Hq. apply Hkey in Hq as [? ?]. split; auto. lia.
    + intros s Hs. apply Hm in Hs. lia.
    + intros s q Hq. destruct (N.eq_dec s seq) as [->|Hne].
      * split; auto. lia.
      * rewrite nget_nput_other in Hq by auto. apply Hkey in Hq as [? ?]. split; auto. lia.
  - destruct (N.ltb_spec (i_seq i + 1) seq) as [Hgt|Hle].
    + destruct (N.ltb_spec MAX_WINDOW_LOOKAHEAD (seq - i_seq i - 1)); [discriminate|].
      injection H as <-.
      set (gap := nseq (i_seq i + 1) (N.to_nat (seq - i_seq i - 1))).
      assert (Hgap : forall s, In s gap <-> i_seq i < s < seq).
      { intros s. unfold gap. rewrite nseq_In. lia. }
      assert (Hms : forall s, In s (sdel seq (mark_missing gap (i_pending i) (i_missing i))) <->
                              In s (i_missing i) \/ i_seq i < s < seq).
      { intros s. rewrite sdel_In, mark_missing_In, Hgap. split; [intuition|]. intros [Hin|?].
        - split; auto. apply Hm in Hin. lia.
        - split; [lia|]. right. split; auto.
          destruct (nget s (i_pending i)) eqn:E; auto. apply Hkey in E. lia. }
      constructor; cbn [i_missing i_seq i_pending].
      * apply sdel_sorted, mark_missing_sorted; auto.
      * lia.
      * intros s Hs. apply Hms in Hs as [Hs|Hs]; [apply Hm in Hs; lia|lia].
      * intros s q Hq. rewrite Hms. destruct (N.eq_dec s seq) as [->|Hne].
        -- split; [lia|]. intros [Hin|?]; [apply Hm in Hin; lia|lia].
        -- rewrite nget_nput_other in Hq by auto. apply Hkey in Hq as [? ?].
           split; [lia|]. intros [?|?]; [auto|lia].
      * intros s Hs. rewrite Hcons, Hr, Hms by auto. split.
        -- intros [->|[? ?]]; split; try lia; intros [Hin|?]; try lia; auto. apply Hm in Hin. lia.
        -- intros [Hle1 Hnm]. destruct (N.eq_dec s seq); auto. right. split; [|auto].
           destruct (N.le_gt_cases s (i_seq i)); auto. exfalso. apply Hnm. right. lia.
    + destruct (i_missing i) as [|m ms] eqn:Em.
      * injection H as <-. constructor; cbn [i_missing i_seq i_pending]; auto.
        -- intros s q Hq. destruct (N.eq_dec s seq) as [->|Hne]; [split; [lia|auto]|].
           rewrite nget_nput_other in Hq by auto. eauto.
        -- intros s Hs. rewrite Hcons, Hr by auto. split; [intros [->|?]|]; intuition lia.
      * assert (Hdel : forall s, In s (sdel seq (m :: ms)) <-> s <> seq /\ In s (m :: ms))
          by (intros; apply sdel_In).
        assert (Hrr : forall s, base < s ->
                  (In s (seq :: rcv) <-> s <= i_seq i /\ ~ In s (sdel seq (m :: ms)))).
        { intros s Hs. rewrite Hcons, Hr, Hdel by auto. split.
          - intros [->|[? ?]]; split; try lia; tauto.
          - intros [? ?]. destruct (N.eq_dec s seq); auto. right. split; auto. }
        set (ms' := sdel seq (m :: ms)) in *.
        destruct (N.eqb_spec m seq) as [Heq|Hne].
        -- destruct (drain _ _ _ _) as [pend ready] eqn:Ed.
           apply f_equal with (f := fun o => match o with Some x => x | None => i' end) in H.
           subst i'. constructor; cbn [i_missing i_seq i_pending]; auto.
           ++ now apply sdel_sorted.
           ++ intros s Hs. apply Hdel in Hs as [_ Hs]. auto.
           ++ intros s q Hq. eapply drain_sub in Hq; [|exact Ed]. apply Hkey in Hq as [? ?].
              split; auto. rewrite Hdel. tauto.
        -- apply f_equal with (f := fun o => match o with Some x => x | None => i' end) in H.
           subst i'. constructor; cbn [i_missing i_seq i_pending]; auto.
           ++ now apply sdel_sorted.
           ++ intros s Hs. apply Hdel in Hs as [_ Hs]. auto.
           ++ intros s q Hq. rewrite Hdel. destruct (N.eq_dec s seq) as [->|Hne'];
                [split; [lia|tauto]|].
              rewrite nget_nput_other in Hq by auto. apply Hkey in Hq as [? ?]. split; auto. tauto.
Qed.

Definition ack_ok (rcv : list N) (p : packet) : Prop :=
  (length (p_nacks p) < 255)%nat -> (p_close p = true -> p_seq p = 0) ->
  forall n, base < n -> n <= p_ack p -> ~ In n (p_nacks p) -> In n rcv.

Lemma nacks_full : forall ms : list N, (length (firstn MAX_NACKS ms) < 255)%nat -> firstn MAX_NACKS ms = ms.
Proof.
  intros ms H. unfold MAX_NACKS in *. rewrite firstn_length in H. apply firstn_all2. lia.
Qed.

Lemma ack_ok_data : forall rcv i seq c, RInv rcv i -> ack_ok rcv (data_packet i seq c).
Proof.
  intros rcv i seq c Hi Hn _ n Hb Hle Hni. cbn [data_packet p_nacks p_ack p_seq] in *.
  rewrite nacks_full in Hni by auto. apply (rv_rcv _ _ Hi); auto.
Qed.

Lemma ack_ok_plain : forall rcv i, RInv rcv i -> ack_ok rcv (plain_ack i).
Proof.
  intros rcv i Hi Hn _ n Hb Hle Hni. cbn [plain_ack p_nacks p_ack p_seq] in *.
  rewrite nacks_full in Hni by auto. apply (rv_rcv _ _ Hi); auto.
Qed.

Lemma ack_ok_close : forall rcv i seq, 0 < seq -> ack_ok rcv (close_packet i seq).
Proof. intros rcv i seq Hs _ Hc. cbn in Hc. specialize (Hc eq_refl). lia. Qed.

Lemma ack_ok_syn : forall rcv, ack_ok rcv syn_ack.
Proof. intros rcv _ _ n Hb Hle. cbn in Hle. lia. Qed.

Lemma ack_ok_mono : forall r1 r2 p, (forall n, In n r1 -> In n r2) -> ack_ok r1 p -> ack_ok r2 p.
Proof. intros r1 r2 p H Ha H1 H2 n H3 H4 H5. apply H. eauto. Qed.

Definition maps_ok (P : packet -> Prop) (s : stream) : Prop :=
  (forall k p, In (k, p) (s_unacked s) -> P p) /\ (forall k p, In (k, p) (s_pending s) -> P p).

Definition outs_ok (P : packet -> Prop) (o : list out) : Prop := forall p, In (OSend p) o -> P p.

Lemma outs_ok_app : forall P a b, outs_ok P a -> outs_ok P b -> outs_ok P (a ++ b).
Proof. intros P a b Ha Hb p H. apply in_app_or in H as [H|H]; auto. Qed.

Lemma outs_ok_nil : forall P, outs_ok P [].
Proof. intros P p []. Qed.

Lemma enqueue_maps : forall P s p ok s' o,
  maps_ok P s -> P p -> enqueue s p ok = (s', o) -> maps_ok P s' /\ outs_ok P o.
Proof.
  intros P s p ok s' o [Hu Hp] HP H. unfold enqueue in H.
  destruct (_ || _); apply pair_equal_spec in H as [<- <-]; split; unfold maps_ok;
    cbn [s_unacked s_pending].
  - split; auto. intros k q Hin. apply In_nput in Hin as [Hin|Hin]; [now injection Hin as _ ->|eauto].
  - apply outs_ok_nil.
  - split; auto. intros k q Hin. apply In_nput in Hin as [Hin|Hin]; [now injection Hin as _ ->|eauto].
  - intros q [Hq|[]]. now injection Hq as <-.
Qed.

Lemma enqueue_all_maps : forall P ps s oks s' o,
  maps_ok P s -> (forall p, In p ps -> P p) -> enqueue_all s ps oks = (s', o) ->
  maps_ok P s' /\ outs_ok P o.
Proof.
  induction ps as [|p ps IH]; cbn [enqueue_all]; intros s oks s' o Hm Hps H.
  - apply pair_equal_spec in H as [<- <-]. split; auto using outs_ok_nil.
  - destruct (enqueue s p (hd true oks)) as [s1 o1] eqn:E1.
    destruct (enqueue_all s1 ps (tl oks)) as [s2 o2] eqn:E2.
    apply pair_equal_spec in H as [<- <-].
    eapply enqueue_maps in E1 as [Hm1 Ho1]; eauto; [|apply Hps; now left].
    eapply IH in E2 as [Hm2 Ho2]; eauto; [|intros; apply Hps; now right].
    split; auto. now apply outs_ok_app.
Qed.

Lemma flush_keys_maps : forall P ks s oks s' o,
  maps_ok P s -> flush_keys s ks oks = (s', o) -> maps_ok P s' /\ outs_ok P o.
Proof.
  induction ks as [|k ks IH]; cbn [flush_keys]; intros s oks s' o Hm H.
  - apply pair_equal_spec in H as [<- <-]. split; auto using outs_ok_nil.
  - destruct (nget k (s_pending s)) as [p|] eqn:Ep; [|eauto].
    apply nget_In in Ep. pose proof Hm as [Hu Hp].
    destruct (hd true oks).
    + destruct (flush_keys _ ks (tl oks)) as [s2 o2] eqn:E2.
      apply pair_equal_spec in H as [<- <-].
      apply IH in E2 as [Hm2 Ho2].
      * split; auto. intros q [Hq|Hq]; [injection Hq as <-; eauto|auto].
      * unfold maps_ok. cbn [s_unacked s_pending]. split.
        -- intros j q Hin. apply In_nput in Hin as [Hin|Hin]; [injection Hin as _ ->; eauto|eauto].
        -- intros j q Hin. apply In_ndel in Hin as [Hin _]. eauto.
    + destruct (flush_keys _ ks (tl oks)) as [s2 o2] eqn:E2.
      apply pair_equal_spec in H as [<- <-]. apply IH in E2 as [Hm2 Ho2]; auto.
Qed.

Lemma fold_ndel_In : forall V ks (m : nmap V) x,
  In x (fold_left (fun m k => ndel k m) ks m) <-> In x m /\ ~ In (fst x) ks.
Proof.
  induction ks as [|k ks IH]; cbn [fold_left In]; intros m x; [tauto|].
  rewrite IH, In_ndel. intuition.
Qed.

Lemma handle_acks_maps : forall P s a n, maps_ok P s -> maps_ok P (handle_acks s a n).
Proof.
  intros P s a n [Hu Hp]. unfold handle_acks. destruct (_ <? _); [split; auto|].
  split; cbn [s_unacked s_pending]; auto.
  intros k p Hin. apply fold_ndel_In in Hin as [Hin _]. eauto.
Qed.

Lemma number_packets_In : forall i cs seq p, In p (number_packets i seq cs) ->
  exists j c, nth_error cs j = Some c /\ p = data_packet i (seq + N.of_nat j) c.
Proof.
  induction cs as [|c cs IH]; cbn [number_packets]; intros seq p H; [contradiction|].
  destruct H as [<-|H].
  - exists 0%nat, c. split; auto. f_equal. lia.
  - apply IH in H as (j & c' & Hn & ->). exists (S j), c'. split; auto. f_equal. lia.
Qed.

Definition AInv (rcv : list N) (s : stream) : Prop :=
  RInv rcv (s_in s) /\ maps_ok (ack_ok rcv) s /\ 0 < s_next s.

Definition AInv' (rcv : list N) (s : stream) (o : list out) : Prop :=
  outs_ok (ack_ok rcv) o /\ (s_done s = false -> AInv rcv s).

Lemma RInv_ext : forall rcv i i', RInv rcv i ->
  i_missing i' = i_missing i -> i_pending i' = i_pending i -> i_seq i' = i_seq i -> RInv rcv i'.
Proof. intros rcv i i' [] E1 E2 E3. constructor; rewrite ?E1, ?E2, ?E3; auto. Qed.

Lemma maps_ok_mono : forall r1 r2 s, (forall n, In n r1 -> In n r2) ->
  maps_ok (ack_ok r1) s -> maps_ok (ack_ok r2) s.
Proof.
  intros r1 r2 s H [Hu Hp]. split; intros k p Hin; eapply ack_ok_mono; eauto.
Qed.

Lemma outs_ok_mono : forall r1 r2 o, (forall n, In n r1 -> In n r2) ->
  outs_ok (ack_ok r1) o -> outs_ok (ack_ok r2) o.
Proof. intros r1 r2 o H Ho p Hin. eapply ack_ok_mono; eauto. Qed.

Lemma on_packet_outs : forall (P : packet -> Prop) s p ok r o, P syn_ack -> on_packet s p ok = (r, o) -> outs_ok P o.
Proof.
  intros P s p ok r o HP H. unfold on_packet in H.
  assert (Ho : outs_ok P (if p_syn p && ok then [OSend syn_ack] else [])).
  { destruct (p_syn p && ok); [|apply outs_ok_nil]. intros q [Hq|[]]. now injection Hq as <-. }
  destruct (p_syn p && negb ok); [apply pair_equal_spec in H as [_ <-]; apply outs_ok_nil|].
  destruct (p_reset p); [now apply pair_equal_spec in H as [_ <-]|].
  match type of H with match ?x with _ => _ end = _ => destruct x as [s3|] end;
    [destruct (_ && _ && _)|]; now apply pair_equal_spec in H as [_ <-].
Qed.

Lemma on_packet_AInv : forall rcv s p ok s' o,
  AInv rcv s -> on_packet s p ok = (Some s', o) ->
  AInv (data_seqs [p] ++ rcv) s' /\ s_write s' = s_write s /\ s_done s' = s_done s.
Proof.
  intros rcv s p ok s' o (Hr & Hm & Hn) H. unfold on_packet in H.
  destruct (p_syn p && negb ok); [discriminate|].
  destruct (p_reset p); [discriminate|].
  set (s1 := if p_close p then set_read_closed (set_in s (in_close (s_in s))) else s) in *.
  assert (H1 : RInv rcv (s_in s1) /\ maps_ok (ack_ok rcv) s1 /\ 0 < s_next s1 /\
               s_write s1 = s_write s /\ s_done s1 = s_done s).
  { unfold s1. destruct (p_close p); cbn; auto. repeat apply conj; auto.
    - eapply RInv_ext; eauto.
    - exact (proj1 Hm). - exact (proj2 Hm). }
  clearbody s1. destruct H1 as (Hr1 & Hm1 & Hn1 & Hw1 & Hd1).
  set (s2 := if p_no_ack p then s1 else handle_acks s1 (p_ack p) (p_nacks p)) in *.
  assert (H2 : s_in s2 = s_in s1 /\ maps_ok (ack_ok rcv) s2 /\ 0 < s_next s2 /\
               s_write s2 = s_write s1 /\ s_done s2 = s_done s1).
  { unfold s2. destruct (p_no_ack p); auto 6.
    destruct (handle_acks_frame s1 (p_ack p) (p_nacks p)) as (?&?&?&E&_).
    rewrite E. repeat apply conj; auto; now apply handle_acks_maps. }
  clearbody s2. destruct H2 as (Hi2 & Hm2 & Hn2 & Hw2 & Hd2).
  unfold data_seqs. cbn [filter].
  destruct (p_payload p) as [|b bs] eqn:Ep.
  - destruct (_ && _ && _); [discriminate|]. injection H as <- <-. cbn [map app].
    split; [|split; congruence].
    unfold AInv. rewrite Hi2. auto.
  - destruct (handle_packet (s_in s2) (p_seq p) (b :: bs)) as [i|] eqn:Eh; [|discriminate].
    destruct (_ && _ && _); [discriminate|]. injection H as <- <-. cbn [map app].
    cbn [set_in s_write s_done]. split; [|split; congruence].
    unfold AInv. cbn [set_in s_in s_next]. split; [|split; auto].
    + eapply handle_packet_RInv; [|exact Eh]. now rewrite Hi2.
    + assert (Hmm : maps_ok (ack_ok (p_seq p :: rcv)) s2)
        by (eapply maps_ok_mono; [|exact Hm2]; intros; now right).
      exact Hmm.
Qed.

Lemma AInv_frame : forall rcv s s', AInv rcv s -> s_in s' = s_in s -> s_next s' = s_next s ->
  s_unacked s' = s_unacked s -> s_pending s' = s_pending s -> AInv rcv s'.
Proof. intros rcv s s' (H1 & [H2 H3] & H4) E1 E2 E3 E4. unfold AInv, maps_ok. rewrite E1, E2, E3, E4. auto. Qed.

Lemma shutdown_maps : forall (P : packet -> Prop) s ok s' o,
  maps_ok P s -> P (close_packet (s_in s) (s_next s)) -> shutdown s ok = (s', o) ->
  maps_ok P s' /\ outs_ok P o /\ s_next s <= s_next s' /\ s_in s' = s_in s.
Proof.
  intros P s ok s' o Hm HP H. unfold shutdown in H. destruct (s_close_req s).
  - apply pair_equal_spec in H as [<- <-]. repeat apply conj; auto; [apply Hm|apply Hm|apply outs_ok_nil|lia].
  - pose proof (enqueue_frame _ _ _ _ _ H) as (E1&_&_&_&E2&_). cbn [s_in s_next] in E1, E2.
    eapply enqueue_maps with (P := P) in H as [Hm' Ho]; auto.
    rewrite E2. repeat apply conj; auto; [apply Hm'|apply Hm'|lia].
Qed.

Lemma step_AInv : forall rcv s os e s' o,
  AInv' rcv s os -> step s e = (s', o) ->
  AInv' (data_seqs (taken_now s e) ++ rcv) s' (os ++ o).
Proof.
  intros rcv s os e s' o [Hos Hinv] H. unfold step in H.
  destruct (s_done s) eqn:Ed.
  { apply pair_equal_spec in H as [<- <-]. rewrite app_nil_r. split.
    - eapply outs_ok_mono; [|exact Hos]. intros n Hn. apply in_or_app. now right.
    - congruence. }
  specialize (Hinv eq_refl). pose proof Hinv as (Hr & Hm & Hnx).
  assert (Hnop : AInv' rcv s (os ++ [])) by (rewrite app_nil_r; split; auto).
  assert (Hgo : forall s1 o1, AInv rcv s1 -> outs_ok (ack_ok rcv) o1 -> AInv' rcv s1 (os ++ o1))
    by (intros; split; auto; now apply outs_ok_app).
  assert (Hcl : forall ok s1 o1, client_closed s ok = (s1, o1) -> AInv' rcv s1 (os ++ o1)).
  { intros ok s1 o1 Hc. unfold client_closed in Hc.
    eapply shutdown_maps with (P := ack_ok rcv) in Hc as (Hm1 & Ho1 & Hn1 & Hi1).
    - apply Hgo; auto. split; [|split; auto].
      + rewrite Hi1. exact Hr.
      + cbn in Hn1. lia.
    - exact Hm.
    - apply ack_ok_close. exact Hnx. }
  destruct e; cbn [taken_now] in *; try (change (data_seqs [] ++ rcv) with rcv).
  - unfold can_take in *. rewrite Ed in *. cbn [negb andb] in *.
    assert (Hsub : forall q n, In n rcv -> In n (data_seqs [q] ++ rcv))
      by (intros; apply in_or_app; now right).
    destruct (s_write s) eqn:Ew.
    + destruct (on_packet s p syn_ok) as [[s1|] o1] eqn:Eo.
      * pose proof (on_packet_outs (ack_ok (data_seqs [p] ++ rcv)) _ _ _ _ _ (ack_ok_syn _) Eo) as Ho.
        eapply on_packet_AInv in Eo as (Hi & Hw & Hd); eauto.
        destruct (pop_message (s_in s1)) as [[m i]|] eqn:Ep;
          apply pair_equal_spec in H as [<- <-];
          (split; [apply outs_ok_app; auto; eapply outs_ok_mono; [|exact Hos]; auto|]).
        -- intros _. destruct Hi as (H1 & H2 & H3). split; [|split; auto].
           unfold pop_message in Ep. destruct (i_ready (s_in s1)); [discriminate|].
           injection Ep as <- <-. cbn. eapply RInv_ext; eauto.
        -- intros _. auto.
      * pose proof (on_packet_outs (ack_ok (data_seqs [p] ++ rcv)) _ _ _ _ _ (ack_ok_syn _) Eo) as Ho.
        apply pair_equal_spec in H as [<- <-]. split; [|cbn; discriminate].
        apply outs_ok_app; auto. eapply outs_ok_mono; [|exact Hos]; auto.
    + apply pair_equal_spec in H as [<- <-]. exact Hnop.
    + destruct (on_packet s p syn_ok) as [[s1|] o1] eqn:Eo.
      * pose proof (on_packet_outs (ack_ok (data_seqs [p] ++ rcv)) _ _ _ _ _ (ack_ok_syn _) Eo) as Ho.
        eapply on_packet_AInv in Eo as (Hi & Hw & Hd); eauto.
        apply pair_equal_spec in H as [<- <-].
        split; [apply outs_ok_app; auto; eapply outs_ok_mono; [|exact Hos]; auto|]. auto.
      * pose proof (on_packet_outs (ack_ok (data_seqs [p] ++ rcv)) _ _ _ _ _ (ack_ok_syn _) Eo) as Ho.
        apply pair_equal_spec in H as [<- <-]. split; [|cbn; discriminate].
        apply outs_ok_app; auto. eapply outs_ok_mono; [|exact Hos]; auto.
  - apply pair_equal_spec in H as [<- <-]. exact Hnop.
  - destruct (s_write s) eqn:Ew; try (apply pair_equal_spec in H as [<- <-]; exact Hnop).
    destruct (pop_message (s_in s)) as [[m i]|] eqn:Ep; apply pair_equal_spec in H as [<- <-];
      [|exact Hnop].
    apply Hgo; [|apply outs_ok_nil]. split; [|split; auto].
    unfold pop_message in Ep. destruct (i_ready (s_in s)); [discriminate|].
    injection Ep as <- <-. cbn. eapply RInv_ext; eauto.
  - destruct (s_write s) eqn:Ew.
    + eapply Hcl; eauto.
    + apply pair_equal_spec in H as [<- <-]; exact Hnop.
    + apply pair_equal_spec in H as [<- <-]. apply Hgo; [|apply outs_ok_nil].
      eapply AInv_frame; eauto.
  - apply pair_equal_spec in H as [<- <-]. split; [now rewrite app_nil_r|cbn; discriminate].
  - destruct (s_write s) as [|off m|] eqn:Ew;
      try (apply pair_equal_spec in H as [<- <-]; exact Hnop).
    destruct (_ && _); apply pair_equal_spec in H as [<- <-]; [|exact Hnop].
    apply Hgo; [eapply AInv_frame; eauto|]. intros q [Hq|[]]. discriminate.
  - destruct (s_write s) eqn:Ew; try (apply pair_equal_spec in H as [<- <-]; exact Hnop).
    eapply Hcl; eauto.
  - destruct (s_pending s) eqn:Ep; [|apply pair_equal_spec in H as [<- <-]; exact Hnop].
    destruct (s_read_closed s); [apply pair_equal_spec in H as [<- <-]; exact Hnop|].
    destruct (_ && _); [|apply pair_equal_spec in H as [<- <-]; exact Hnop].
    unfold packetize in H. destruct (enqueue_all _ _ _) as [s1 o1] eqn:E.
    apply pair_equal_spec in H as [<- <-].
    pose proof (enqueue_all_frame _ _ _ _ _ E) as (E1&_&_&_&E2&_). cbn [s_in s_next] in E1, E2.
    eapply enqueue_all_maps with (P := ack_ok rcv) in E as [Hm1 Ho1].
    + apply Hgo; auto. split; [cbn [set_rto s_in]; now rewrite E1|]. split; [exact Hm1|].
      cbn [set_rto s_next]. lia.
    + unfold maps_ok. cbn [s_unacked s_pending]. exact Hm.
    + intros q Hq. apply number_packets_In in Hq as (j & c & _ & ->). now apply ack_ok_data.
  - destruct (s_pending s) eqn:Ep; [|apply pair_equal_spec in H as [<- <-]; exact Hnop].
    destruct (s_read_closed s); [apply pair_equal_spec in H as [<- <-]; exact Hnop|].
    eapply Hcl; eauto.
  - unfold flush in H. destruct (flush_keys _ _ _) as [s1 o1] eqn:E.
    apply pair_equal_spec in H as [<- <-].
    pose proof (flush_keys_frame _ _ _ _ _ E) as (E1&_&_&_&E2&_).
    eapply flush_keys_maps with (P := ack_ok rcv) in E as [Hm1 Ho1]; auto.
    apply Hgo; auto. split; [cbn [set_rto s_in]; now rewrite E1|]. split; [exact Hm1|].
    cbn [set_rto s_next]. lia.
  - destruct (s_rto s); [|apply pair_equal_spec in H as [<- <-]; exact Hnop].
    apply resend_frame in H as (E1&E2&E3&E4&E5&E6&E7&E8&E9&E10&Ho).
    apply Hgo; [eapply AInv_frame; eauto|]. intros q Hq. apply Ho in Hq as [k Hk].
    destruct Hm as [Hu _]. eauto.
  - destruct (i_timer (s_in s)); [|apply pair_equal_spec in H as [<- <-]; exact Hnop].
    assert (Ho : outs_ok (ack_ok rcv) (if ok then [OSend (plain_ack (s_in s))] else [])).
    { destruct ok; [|apply outs_ok_nil]. intros q [Hq|[]]. injection Hq as <-.
      now apply ack_ok_plain. }
    destruct (can_close (s_in s)); apply pair_equal_spec in H as [<- <-].
    + split; [now apply outs_ok_app|cbn; discriminate].
    + apply Hgo; auto. split; [|split; auto]. cbn. eapply RInv_ext; eauto.
Qed.

Lemma AInv'_equiv : forall r1 r2 s o, (forall n, In n r1 <-> In n r2) -> AInv' r1 s o -> AInv' r2 s o.
Proof.
  intros r1 r2 s o H [Ho Hi]. split.
  - eapply outs_ok_mono; [|exact Ho]. intros; now apply H.
  - intros Hd. destruct (Hi Hd) as (H1 & H2 & H3). split; [|split; auto].
    + destruct H1. constructor; auto. intros x Hx. rewrite <- H. auto.
    + eapply maps_ok_mono; [|exact H2]. intros; now apply H.
Qed.

Lemma run_AInv : forall es rcv s os s' o,
  AInv' rcv s os -> run s es = (s', o) ->
  AInv' (rcv ++ data_seqs (taken s es)) s' (os ++ o).
Proof.
  induction es as [|e es IH]; cbn [run taken]; intros rcv s os s' o Hi H.
  - apply pair_equal_spec in H as [<- <-]. cbn. now rewrite !app_nil_r.
  - destruct (step s e) as [s1 o1] eqn:Es. destruct (run s1 es) as [s2 o2] eqn:Er.
    apply pair_equal_spec in H as [<- <-].
    fold (taken_now s e). eapply step_AInv in Es; eauto. cbn [fst].
    eapply IH in Er; eauto. rewrite app_assoc.
    eapply AInv'_equiv; [|exact Er].
    intros n. rewrite data_seqs_app, !in_app_iff. tauto.
Qed.

Lemma AInv_new : forall initial, AInv' [] (stream_new base initial) [].
Proof.
  intros initial. split; [apply outs_ok_nil|]. intros _. split; [apply RInv_new|].
  split; [split; intros k p []|]. cbn. lia.
Qed.

Lemma In_sent : forall p o, In p (sent o) <-> In (OSend p) o.
Proof.
  intros p o. unfold sent. rewrite in_flat_map. split.
  - intros (x & Hx & Hp). destruct x; cbn in Hp; [destruct Hp as [->|[]]; auto|contradiction].
  - intros H. exists (OSend p). split; auto. now left.
Qed.

Lemma acks_truthful : forall initial es s o p n,
  run (stream_new base initial) es = (s, o) -> In p (sent o) ->
  (length (p_nacks p) < 255)%nat -> (p_close p = true -> p_seq p = 0) ->
  base < n -> acks p n -> arrived n (taken (stream_new base initial) es).
Proof.
  intros initial es s o p n H Hp Hl Hc Hb (Hna & Hle & Hni).
  eapply run_AInv in H; [|apply AInv_new]. cbn [app] in H. destruct H as [Ho _].
  apply data_seqs_arrived. apply In_sent in Hp. eapply Ho; eauto.
Qed.
End Acks.
