(** The sending half keeps every byte until it is acknowledged; two streams composed over a
    lossy network. *)
From Coq Require Import List NArith Arith Lia Bool ZifyBool ZifyNat ZifyN.
From Verif Require Import ListUtil NMap StreamModel StreamSpec StreamInProofs StreamProofs
  StreamOutProofs.
Import ListNotations.
Open Scope N_scope.

(** ** chunks *)
Lemma chunks_aux_spec : forall fuel n l, (0 < n)%nat -> (length l <= fuel)%nat ->
  concat (chunks_aux fuel n l) = l /\
  Forall (fun c => c <> [] /\ (length c <= n)%nat) (chunks_aux fuel n l).
Proof.
  induction fuel as [|fuel IH]; intros n l Hn Hl; cbn [chunks_aux].
  - destruct l; [|cbn in Hl; lia]. split; [reflexivity|constructor].
  - destruct l as [|b l]; [split; [reflexivity|constructor]|].
    destruct (IH n (skipn n (b :: l)) Hn) as [H1 H2].
    { rewrite skipn_length. cbn [length] in *. lia. }
    split.
    + cbn [concat]. rewrite H1. apply firstn_skipn.
    + constructor; auto. split.
      * destruct n; [lia|]. cbn. discriminate.
      * rewrite firstn_length. lia.
Qed.

Lemma chunks_spec : forall n l, (0 < n)%nat ->
  concat (chunks n l) = l /\ Forall (fun c => c <> [] /\ (length c <= n)%nat) (chunks n l).
Proof. intros. apply chunks_aux_spec; auto. Qed.

Lemma number_packets_length : forall i cs seq, length (number_packets i seq cs) = length cs.
Proof. induction cs; cbn; intros; auto. Qed.

(** ** Sender invariant *)
Definition genuine (cs : list bytes) (p : packet) : Prop :=
  p_payload p = [] \/ (1 <= p_seq p /\ nth_error cs (N.to_nat (p_seq p - 1)) = Some (p_payload p)).

Lemma genuine_mono : forall cs d p, genuine cs p -> genuine (cs ++ d) p.
Proof.
  intros cs d p [H|[H1 H2]]; [now left|]. right. split; auto.
  rewrite nth_error_app1; auto. apply nth_error_Some. congruence.
Qed.

Definition b2n (b : bool) : N := if b then 1 else 0.

Record OInv (cs : list bytes) (T : list packet) (s : stream) : Prop := {
  ov_next : s_next s = 1 + N.of_nat (length cs) + b2n (s_close_req s);
  ov_closed : s_close_req s = true -> s_read_closed s = true;
  ov_su : sorted (nkeys (s_unacked s));
  ov_sp : sorted (nkeys (s_pending s));
  ov_u : forall k p, In (k, p) (s_unacked s) ->
           p_seq p = k /\ 1 <= k < s_next s /\ genuine cs p /\
           (forall c, nth_error cs (N.to_nat (k - 1)) = Some c -> p_payload p = c);
  ov_p : forall k p, In (k, p) (s_pending s) ->
           p_seq p = k /\ 1 <= k < s_next s /\ genuine cs p /\
           (forall c, nth_error cs (N.to_nat (k - 1)) = Some c -> p_payload p = c);
  ov_keep : forall k, 1 <= k -> k < s_next s ->
              In k (nkeys (s_unacked s)) \/ In k (nkeys (s_pending s)) \/
              exists q, In q T /\ acks q k;
  ov_win : (1 <= s_window s <= MAX_WINDOW_SIZE)%nat;
  ov_len : (length (s_unacked s) <= MAX_WINDOW_SIZE)%nat
}.

Lemma OInv_new : forall base initial, OInv [] [] (stream_new base initial).
Proof.
  intros. constructor; cbn; try constructor; try tauto; try lia; try discriminate.
  all: unfold INITIAL_WINDOW_SIZE, MAX_WINDOW_SIZE; try lia.
Qed.

Lemma OInv_frame : forall cs T s s', OInv cs T s ->
  s_next s' = s_next s -> s_unacked s' = s_unacked s -> s_pending s' = s_pending s ->
  s_window s' = s_window s -> s_close_req s' = s_close_req s ->
  (s_read_closed s = true -> s_read_closed s' = true) -> OInv cs T s'.
Proof.
  intros cs T s s' [] E1 E2 E3 E4 E5 E6.
  constructor; rewrite ?E1, ?E2, ?E3, ?E4, ?E5; auto.
Qed.

Lemma OInv_mono : forall cs T T' s, OInv cs T s -> (forall q, In q T -> In q T') -> OInv cs T' s.
Proof.
  intros cs T T' s [] H. constructor; auto. intros k Hk1 Hk2.
  destruct (ov_keep0 k Hk1 Hk2) as [?|[?|(q & Hq & Ha)]]; auto. right. right. eauto.
Qed.

Lemma grow_window_bound : forall w, (1 <= w <= MAX_WINDOW_SIZE)%nat ->
  (1 <= grow_window w <= MAX_WINDOW_SIZE)%nat.
Proof.
  intros w H. unfold grow_window, EXP_GROWTH_STOP_THRESHOLD, MAX_WINDOW_SIZE in *.
  destruct (Nat.ltb_spec w 64); [lia|]. destruct (Nat.ltb_spec w 128); lia.
Qed.

Lemma fold_grow_bound : forall (l : list N) w, (1 <= w <= MAX_WINDOW_SIZE)%nat ->
  (1 <= fold_left (fun w _ => grow_window w) l w <= MAX_WINDOW_SIZE)%nat.
Proof. induction l; cbn [fold_left]; intros; auto. apply IHl. now apply grow_window_bound. Qed.

Lemma fold_ndel_sorted : forall V ks (m : nmap V), sorted (nkeys m) ->
  sorted (nkeys (fold_left (fun m k => ndel k m) ks m)).
Proof. induction ks; cbn [fold_left]; intros; auto. apply IHks. now apply ndel_Sorted. Qed.

Lemma fold_ndel_length : forall V ks (m : nmap V),
  (length (fold_left (fun m k => ndel k m) ks m) <= length m)%nat.
Proof.
  induction ks; cbn [fold_left]; intros; auto. etransitivity; [apply IHks|]. apply ndel_length_le.
Qed.

Lemma acked_by_acks : forall q k, p_no_ack q = false ->
  acked_by (p_ack q) (p_nacks q) k = true -> acks q k.
Proof.
  intros q k Hn H. unfold acked_by in H. apply andb_true_iff in H as [H1 H2].
  apply N.leb_le in H1. split; auto. split; auto. intros Hin.
  apply negb_true_iff in H2. assert (existsb (fun n => n =? k) (p_nacks q) = true); [|congruence].
  apply existsb_exists. exists k. split; auto. apply N.eqb_refl.
Qed.

Lemma handle_acks_OInv : forall cs T s q, OInv cs T s -> In q T -> p_no_ack q = false ->
  OInv cs T (handle_acks s (p_ack q) (p_nacks q)).
Proof.
  intros cs T s q Hi Hq Hna. unfold handle_acks. destruct (_ <? _); auto.
  destruct Hi as [H1 H2 H3 H4 H5 H6 H7 H8 H9].
  constructor; cbn [s_next s_close_req s_read_closed s_unacked s_pending s_window]; auto.
  - now apply fold_ndel_sorted.
  - intros k p Hin. apply fold_ndel_In in Hin as [Hin _]. auto.
  - intros k Hk1 Hk2. destruct (H7 k Hk1 Hk2) as [Hin|[?|?]]; auto.
    destruct (in_dec N.eq_dec k (filter (acked_by (p_ack q) (p_nacks q)) (nkeys (s_unacked s))))
      as [Ha|Ha].
    + apply filter_In in Ha as [_ Ha]. right. right. exists q. split; auto. now apply acked_by_acks.
    + left. unfold nkeys in *. apply in_map_iff in Hin as [[k' p] [Hk Hin]]. cbn in Hk. subst k'.
      apply in_map_iff. exists (k, p). split; auto. apply fold_ndel_In. auto.
  - now apply fold_grow_bound.
  - etransitivity; [apply fold_ndel_length|auto].
Qed.

(** adding a freshly built packet with the highest key *)
Lemma enqueue_OInv_aux : forall s p ok s' o cs T (todo : N -> Prop),
  enqueue s p ok = (s', o) ->
  sorted (nkeys (s_unacked s)) -> sorted (nkeys (s_pending s)) ->
  (forall k q, In (k, q) (s_unacked s) -> p_seq q = k /\ 1 <= k < s_next s /\ genuine cs q /\
     (forall c, nth_error cs (N.to_nat (k - 1)) = Some c -> p_payload q = c)) ->
  (forall k q, In (k, q) (s_pending s) -> p_seq q = k /\ 1 <= k < s_next s /\ genuine cs q /\
     (forall c, nth_error cs (N.to_nat (k - 1)) = Some c -> p_payload q = c)) ->
  1 <= p_seq p < s_next s -> genuine cs p ->
  (forall c, nth_error cs (N.to_nat (p_seq p - 1)) = Some c -> p_payload p = c) ->
  (forall k, 1 <= k -> k < s_next s -> ~ todo k -> k <> p_seq p ->
     In k (nkeys (s_unacked s)) \/ In k (nkeys (s_pending s)) \/ exists q, In q T /\ acks q k) ->
  (1 <= s_window s <= MAX_WINDOW_SIZE)%nat -> (length (s_unacked s) <= MAX_WINDOW_SIZE)%nat ->
  sorted (nkeys (s_unacked s')) /\ sorted (nkeys (s_pending s')) /\
  (forall k q, In (k, q) (s_unacked s') -> p_seq q = k /\ 1 <= k < s_next s /\ genuine cs q /\
     (forall c, nth_error cs (N.to_nat (k - 1)) = Some c -> p_payload q = c)) /\
  (forall k q, In (k, q) (s_pending s') -> p_seq q = k /\ 1 <= k < s_next s /\ genuine cs q /\
     (forall c, nth_error cs (N.to_nat (k - 1)) = Some c -> p_payload q = c)) /\
  (forall k, 1 <= k -> k < s_next s -> ~ todo k ->
     In k (nkeys (s_unacked s')) \/ In k (nkeys (s_pending s')) \/ exists q, In q T /\ acks q k) /\
  (length (s_unacked s') <= MAX_WINDOW_SIZE)%nat.
Proof.
  intros s p ok s' o cs T todo H Hsu Hsp Hu Hp Hseq Hg Hc Hk Hw Hl. unfold enqueue in H.
  destruct (Nat.leb_spec (s_window s) (length (s_unacked s))) as [Hfull|Hroom];
    [|destruct ok]; cbn [orb negb] in H; apply pair_equal_spec in H as [<- _];
    cbn [s_unacked s_pending].
  - repeat apply conj; auto.
    + now apply nput_Sorted.
    + intros k q Hin. apply In_nput in Hin as [Hin|Hin]; [|auto].
      injection Hin as -> ->. auto.
    + intros k Hk1 Hk2 Ht. rewrite !In_nkeys_nput. destruct (N.eq_dec k (p_seq p)); auto.
      destruct (Hk k Hk1 Hk2 Ht n) as [?|[?|?]]; auto.
  - repeat apply conj; auto.
    + now apply nput_Sorted.
    + intros k q Hin. apply In_nput in Hin as [Hin|Hin]; [|auto].
      injection Hin as -> ->. auto.
    + intros k Hk1 Hk2 Ht. rewrite !In_nkeys_nput. destruct (N.eq_dec k (p_seq p)); auto.
      destruct (Hk k Hk1 Hk2 Ht n) as [?|[?|?]]; auto.
    + pose proof (nput_length_le _ (p_seq p) p (s_unacked s)). lia.
  - repeat apply conj; auto.
    + now apply nput_Sorted.
    + intros k q Hin. apply In_nput in Hin as [Hin|Hin]; [|auto].
      injection Hin as -> ->. auto.
    + intros k Hk1 Hk2 Ht. rewrite !In_nkeys_nput. destruct (N.eq_dec k (p_seq p)); auto.
      destruct (Hk k Hk1 Hk2 Ht n) as [?|[?|?]]; auto.
Qed.

Lemma enqueue_all_OInv : forall ps s oks s' o cs T,
  enqueue_all s ps oks = (s', o) ->
  sorted (nkeys (s_unacked s)) -> sorted (nkeys (s_pending s)) ->
  (forall k q, In (k, q) (s_unacked s) -> p_seq q = k /\ 1 <= k < s_next s /\ genuine cs q /\
     (forall c, nth_error cs (N.to_nat (k - 1)) = Some c -> p_payload q = c)) ->
  (forall k q, In (k, q) (s_pending s) -> p_seq q = k /\ 1 <= k < s_next s /\ genuine cs q /\
     (forall c, nth_error cs (N.to_nat (k - 1)) = Some c -> p_payload q = c)) ->
  (forall p, In p ps -> 1 <= p_seq p < s_next s /\ genuine cs p /\
     (forall c, nth_error cs (N.to_nat (p_seq p - 1)) = Some c -> p_payload p = c)) ->
  (forall k, 1 <= k -> k < s_next s -> ~ In k (map p_seq ps) ->
     In k (nkeys (s_unacked s)) \/ In k (nkeys (s_pending s)) \/ exists q, In q T /\ acks q k) ->
  (1 <= s_window s <= MAX_WINDOW_SIZE)%nat -> (length (s_unacked s) <= MAX_WINDOW_SIZE)%nat ->
  sorted (nkeys (s_unacked s')) /\ sorted (nkeys (s_pending s')) /\
  (forall k q, In (k, q) (s_unacked s') -> p_seq q = k /\ 1 <= k < s_next s /\ genuine cs q /\
     (forall c, nth_error cs (N.to_nat (k - 1)) = Some c -> p_payload q = c)) /\
  (forall k q, In (k, q) (s_pending s') -> p_seq q = k /\ 1 <= k < s_next s /\ genuine cs q /\
     (forall c, nth_error cs (N.to_nat (k - 1)) = Some c -> p_payload q = c)) /\
  (forall k, 1 <= k -> k < s_next s ->
     In k (nkeys (s_unacked s')) \/ In k (nkeys (s_pending s')) \/ exists q, In q T /\ acks q k) /\
  (length (s_unacked s') <= MAX_WINDOW_SIZE)%nat.
Proof.
  induction ps as [|p ps IH]; cbn [enqueue_all]; intros s oks s' o cs T H Hsu Hsp Hu Hp Hps Hk Hw Hl.
  - apply pair_equal_spec in H as [<- _]. repeat apply conj; auto.
  - destruct (enqueue s p (hd true oks)) as [s1 o1] eqn:E1.
    destruct (enqueue_all s1 ps (tl oks)) as [s2 o2] eqn:E2.
    apply pair_equal_spec in H as [<- _].
    pose proof (enqueue_frame _ _ _ _ _ E1) as (_&_&_&_&En&Ew&_).
    destruct (Hps p (or_introl eq_refl)) as (Hseq & Hg & Hc).
    eapply enqueue_OInv_aux with (T := T) (todo := fun k => In k (map p_seq ps)) in E1
      as (A1 & A2 & A3 & A4 & A5 & A6); eauto.
    + rewrite <- En in *. rewrite <- Ew in *.
      eapply IH with (T := T) in E2; eauto.
      intros q Hq. apply Hps. now right.
    + intros k Hk1 Hk2 Ht Hne. apply Hk; auto. cbn. intros [?|?]; auto.
Qed.

Lemma packetize_OInv : forall cs T s d oks s' o,
  OInv cs T s -> s_close_req s = false -> packetize s d oks = (s', o) ->
  OInv (cs ++ chunks MTU_SIZE d) T s'.
Proof.
  intros cs T s d oks s' o [H1 H2 H3 H4 H5 H6 H7 H8 H9] Hcr H. unfold packetize in H.
  destruct (enqueue_all _ _ _) as [s1 o1] eqn:E. apply pair_equal_spec in H as [<- _].
  pose proof (enqueue_all_frame _ _ _ _ _ E) as (_&_&_&_&En&Ew&Ec&Er&_).
  cbn [s_next s_window s_close_req s_read_closed] in En, Ew, Ec, Er.
  rewrite number_packets_length in *.
  set (nc := chunks MTU_SIZE d) in *.
  rewrite Hcr in *. cbn [b2n] in H1.
  assert (Hold : forall k q, 
     p_seq q = k /\ 1 <= k < s_next s /\ genuine cs q /\
     (forall c, nth_error cs (N.to_nat (k - 1)) = Some c -> p_payload q = c) ->
     p_seq q = k /\ 1 <= k < s_next s + N.of_nat (length nc) /\ genuine (cs ++ nc) q /\
     (forall c, nth_error (cs ++ nc) (N.to_nat (k - 1)) = Some c -> p_payload q = c)).
  { intros k q (A & B & C & D). split; auto. split; [lia|]. split; [now apply genuine_mono|].
    intros c Hc. rewrite nth_error_app1 in Hc by lia. auto. }
  eapply enqueue_all_OInv with (cs := cs ++ nc) (T := T) in E as (A1 & A2 & A3 & A4 & A5 & A6);
    cbn [s_unacked s_pending s_next s_window] in *; auto.
  - constructor; cbn [set_rto s_next s_close_req s_read_closed s_unacked s_pending s_window];
      rewrite ?En, ?Ew, ?Ec, ?Er; auto.
    rewrite app_length. cbn [b2n]. lia.
  - intros p Hp. apply number_packets_In in Hp as (j & c & Hj & ->).
    assert (j < length nc)%nat by (apply nth_error_Some; congruence).
    cbn [data_packet p_seq p_payload].
    assert (Hnth : nth_error (cs ++ nc) (N.to_nat (s_next s + N.of_nat j - 1)) = Some c).
    { rewrite nth_error_app2 by lia.
      replace (N.to_nat (s_next s + N.of_nat j - 1) - length cs)%nat with j by lia. auto. }
    split; [lia|]. split.
    + right. split; cbn [data_packet p_seq p_payload]; [lia|exact Hnth].
    + intros c' Hc'. congruence.
  - intros k Hk1 Hk2 Hni. apply H7; auto.
    destruct (N.lt_ge_cases k (s_next s)) as [|Hge]; auto. exfalso. apply Hni.
    assert (Hin : forall l seq j, (j < length l)%nat ->
              In (seq + N.of_nat j) (map p_seq (number_packets (s_in s) seq l))).
    { clear. induction l as [|c l IH]; cbn [length number_packets map]; intros seq j Hj; [lia|].
      destruct j.
      - left. cbn. lia.
      - right. replace (seq + N.of_nat (S j)) with (seq + 1 + N.of_nat j) by lia. apply IH. lia. }
    replace k with (s_next s + N.of_nat (N.to_nat (k - s_next s))) by lia. apply Hin. lia.
Qed.

Lemma shutdown_OInv : forall cs T s ok s' o,
  OInv cs T s -> s_read_closed s = true -> shutdown s ok = (s', o) -> OInv cs T s'.
Proof.
  intros cs T s ok s' o Hi Hrc H. unfold shutdown in H. destruct (s_close_req s) eqn:Ec.
  - now apply pair_equal_spec in H as [<- _].
  - destruct Hi as [H1 H2 H3 H4 H5 H6 H7 H8 H9]. rewrite Ec in H1. cbn [b2n] in H1.
    pose proof (enqueue_frame _ _ _ _ _ H) as (_&_&_&_&En&Ew&Ecr&Er&_).
    cbn [s_next s_window s_close_req s_read_closed] in En, Ew, Ecr, Er.
    assert (Hnth : forall c, nth_error cs (N.to_nat (s_next s - 1)) = Some c -> False).
    { intros c Hc. assert (N.to_nat (s_next s - 1) < length cs)%nat
        by (apply nth_error_Some; congruence). lia. }
    assert (Hup : forall k q, p_seq q = k /\ 1 <= k < s_next s /\ genuine cs q /\
       (forall c, nth_error cs (N.to_nat (k - 1)) = Some c -> p_payload q = c) ->
       p_seq q = k /\ 1 <= k < s_next s + 1 /\ genuine cs q /\
       (forall c, nth_error cs (N.to_nat (k - 1)) = Some c -> p_payload q = c)).
    { intros k q (A & B & C). split; auto. split; [lia|auto]. }
    eapply enqueue_OInv_aux with (T := T) (todo := fun _ => False) (cs := cs) in H
      as (A1 & A2 & A3 & A4 & A5 & A6);
      cbn [s_unacked s_pending s_next s_window close_packet p_seq p_payload] in *; auto.
    + constructor; rewrite ?En, ?Ew, ?Ecr, ?Er; auto. rewrite H1. cbn. lia.
    + lia.
    + now left.
    + intros c Hc. now apply Hnth in Hc.
    + intros k Hk1 Hk2 _ Hne. apply H7; auto. lia.
Qed.

Lemma nkeys_In : forall V k (v : V) m, In (k, v) m -> In k (nkeys m).
Proof. intros. unfold nkeys. change k with (fst (k, v)). now apply in_map. Qed.

Lemma flush_keys_OInv : forall ks cs T s oks s' o,
  OInv cs T s -> (length (s_unacked s) + length ks <= MAX_WINDOW_SIZE)%nat ->
  flush_keys s ks oks = (s', o) -> OInv cs T s'.
Proof.
  induction ks as [|k ks IH]; cbn [flush_keys]; intros cs T s oks s' o Hi Hl H.
  - now apply pair_equal_spec in H as [<- _].
  - cbn [length] in Hl. destruct (nget k (s_pending s)) as [p|] eqn:Ep.
    2:{ eapply IH; [exact Hi| |exact H]. lia. }
    destruct (hd true oks).
    + destruct (flush_keys _ ks (tl oks)) as [s2 o2] eqn:E2.
      apply pair_equal_spec in H as [<- _].
      destruct Hi as [H1 H2 H3 H4 H5 H6 H7 H8 H9].
      pose proof (nput_length_le _ k p (s_unacked s)) as Hle.
      eapply IH in E2; eauto; cbn [s_unacked]; [|lia].
      constructor; cbn [s_next s_close_req s_read_closed s_unacked s_pending s_window]; auto.
      * now apply nput_Sorted.
      * now apply ndel_Sorted.
      * intros j q Hin. apply In_nput in Hin as [Hin|Hin]; [|auto].
        injection Hin as -> ->. apply H6. now apply nget_In.
      * intros j q Hin. apply In_ndel in Hin as [Hin _]. auto.
      * intros j Hj1 Hj2. rewrite In_nkeys_nput, In_nkeys_ndel.
        destruct (N.eq_dec j k); auto. destruct (H7 j Hj1 Hj2) as [?|[?|?]]; auto.
      * lia.
    + destruct (flush_keys _ ks (tl oks)) as [s2 o2] eqn:E2.
      apply pair_equal_spec in H as [<- _]. eapply IH; eauto. lia.
Qed.

Lemma flush_OInv : forall cs T s oks s' o, OInv cs T s -> flush s oks = (s', o) -> OInv cs T s'.
Proof.
  intros cs T s oks s' o Hi H. unfold flush in H.
  destruct (flush_keys _ _ _) as [s1 o1] eqn:E. apply pair_equal_spec in H as [<- _].
  eapply flush_keys_OInv in E; eauto.
  - eapply OInv_frame; eauto.
  - destruct Hi. rewrite firstn_length. lia.
Qed.

Lemma resend_OInv : forall cs T s e path oks s' o,
  OInv cs T s -> resend s e path oks = (s', o) -> OInv cs T s'.
Proof.
  intros cs T s e path oks s' o Hi H.
  apply resend_frame in H as (_&_&_&_&E1&E2&E3&E4&E5&E6&_).
  destruct Hi as [H1 H2 H3 H4 H5 H6 H7 H8 H9].
  constructor; rewrite ?E1, ?E2, ?E3, ?E4, ?E5; auto. lia.
Qed.

Lemma client_closed_OInv : forall cs T s ok s' o,
  OInv cs T s -> client_closed s ok = (s', o) -> OInv cs T s'.
Proof.
  intros cs T s ok s' o Hi H. unfold client_closed in H.
  eapply shutdown_OInv in H; eauto. eapply OInv_frame; eauto.
Qed.

Lemma on_packet_OInv : forall cs T s p ok s' o,
  OInv cs T s -> on_packet s p ok = (Some s', o) -> OInv cs (T ++ [p]) s'.
Proof.
  intros cs T s p ok s' o Hi H. unfold on_packet in H.
  destruct (p_syn p && negb ok); [discriminate|].
  destruct (p_reset p); [discriminate|].
  set (s1 := if p_close p then set_read_closed (set_in s (in_close (s_in s))) else s) in *.
  assert (H1 : OInv cs (T ++ [p]) s1).
  { eapply OInv_mono; [|intros q Hq; apply in_or_app; left; exact Hq].
    unfold s1. destruct (p_close p); auto. eapply OInv_frame; eauto. }
  clearbody s1.
  set (s2 := if p_no_ack p then s1 else handle_acks s1 (p_ack p) (p_nacks p)) in *.
  assert (H2 : OInv cs (T ++ [p]) s2).
  { unfold s2. destruct (p_no_ack p) eqn:En; auto. apply handle_acks_OInv; auto.
    apply in_or_app. right. now left. }
  clearbody s2.
  destruct (p_payload p) as [|b bs].
  - destruct (_ && _ && _); [discriminate|]. now injection H as <- <-.
  - destruct (handle_packet _ _ _) as [i|]; [|discriminate].
    destruct (_ && _ && _); [discriminate|]. injection H as <- <-.
    eapply OInv_frame; eauto.
Qed.

(** chunks accepted by one event *)
Definition accepted_now (s : stream) (e : event) : bytes :=
  match e with
  | ERead d _ => if can_read s && (N.of_nat (length d) <=? 65535) then d else []
  | _ => []
  end.

Lemma step_OInv : forall cs T s e s' o,
  OInv cs T s -> step s e = (s', o) ->
  OInv (cs ++ chunks MTU_SIZE (accepted_now s e)) (T ++ taken_now s e) s'.
Proof.
  intros cs T s e s' o Hi H.
  assert (Hnil : forall cs' T' s1, OInv cs' T' s1 -> OInv (cs' ++ chunks MTU_SIZE []) (T' ++ []) s1)
    by (intros; cbn; now rewrite !app_nil_r).
  assert (Hnil2 : forall cs' T' s1, OInv cs' T' s1 -> OInv (cs' ++ chunks MTU_SIZE []) T' s1)
    by (intros; cbn; now rewrite !app_nil_r).
  unfold step in H. destruct (s_done s) eqn:Ed.
  { apply pair_equal_spec in H as [<- _].
    replace (accepted_now s e) with (@nil N)
      by (unfold accepted_now, can_read; rewrite Ed; destruct e; reflexivity).
    replace (taken_now s e) with (@nil packet)
      by (unfold taken_now, can_take; rewrite Ed; destruct e; reflexivity). auto. }
  destruct e; cbn [taken_now accepted_now] in *.
  - unfold can_take. rewrite Ed. cbn [negb andb]. apply Hnil2.
    destruct (s_write s) eqn:Ew.
    + destruct (on_packet s p syn_ok) as [[s1|] o1] eqn:Eo.
      * eapply on_packet_OInv in Eo; eauto.
        destruct (pop_message (s_in s1)) as [[m i]|]; apply pair_equal_spec in H as [<- _]; auto.
        eapply OInv_frame; eauto.
      * apply pair_equal_spec in H as [<- _]. eapply OInv_mono; [eapply OInv_frame; eauto|].
        intros q Hq. apply in_or_app. auto.
    + apply pair_equal_spec in H as [<- _]. now rewrite app_nil_r.
    + destruct (on_packet s p syn_ok) as [[s1|] o1] eqn:Eo.
      * eapply on_packet_OInv in Eo; eauto. now apply pair_equal_spec in H as [<- _].
      * apply pair_equal_spec in H as [<- _]. eapply OInv_mono; [eapply OInv_frame; eauto|].
        intros q Hq. apply in_or_app. auto.
  - apply pair_equal_spec in H as [<- _]. auto.
  - apply Hnil. destruct (s_write s) eqn:Ew; try (now apply pair_equal_spec in H as [<- _]).
    destruct (pop_message (s_in s)) as [[m i]|]; apply pair_equal_spec in H as [<- _]; auto.
    eapply OInv_frame; eauto.
  - apply Hnil. destruct (s_write s) eqn:Ew.
    + eapply client_closed_OInv; eauto.
    + now apply pair_equal_spec in H as [<- _].
    + apply pair_equal_spec in H as [<- _]. eapply OInv_frame; eauto.
  - apply Hnil. apply pair_equal_spec in H as [<- _]. eapply OInv_frame; eauto.
  - apply Hnil. destruct (s_write s) eqn:Ew; try (now apply pair_equal_spec in H as [<- _]).
    destruct (_ && _); apply pair_equal_spec in H as [<- _]; auto. eapply OInv_frame; eauto.
  - apply Hnil. destruct (s_write s) eqn:Ew; try (now apply pair_equal_spec in H as [<- _]).
    eapply client_closed_OInv; eauto.
  - unfold can_read. rewrite Ed. cbn [negb andb]. rewrite app_nil_r.
    destruct (s_pending s) eqn:Ep.
    2:{ apply pair_equal_spec in H as [<- _]. rewrite andb_false_r. cbn. now rewrite app_nil_r. }
    destruct (s_read_closed s) eqn:Er.
    { apply pair_equal_spec in H as [<- _]. cbn. now rewrite app_nil_r. }
    cbn [negb andb]. unfold READ_BUFFER_SIZE in H.
    destruct (N.of_nat (length data) <=? 65535).
    2:{ apply pair_equal_spec in H as [<- _]. cbn. now rewrite app_nil_r. }
    destruct data as [|b bs].
    { apply pair_equal_spec in H as [<- _]. cbn. now rewrite app_nil_r. }
    cbn [andb] in H. eapply packetize_OInv in H; eauto.
    destruct (s_close_req s) eqn:Ec; auto. apply (ov_closed _ _ _ Hi) in Ec. congruence.
  - apply Hnil. destruct (s_pending s); [|now apply pair_equal_spec in H as [<- _]].
    destruct (s_read_closed s); [now apply pair_equal_spec in H as [<- _]|].
    eapply client_closed_OInv; eauto.
  - apply Hnil. eapply flush_OInv; eauto.
  - apply Hnil. destruct (s_rto s); [|now apply pair_equal_spec in H as [<- _]].
    eapply resend_OInv; eauto.
  - apply Hnil. destruct (i_timer (s_in s)); [|now apply pair_equal_spec in H as [<- _]].
    destruct (can_close (s_in s)); apply pair_equal_spec in H as [<- _]; eapply OInv_frame; eauto.
Qed.

(** everything sent is genuine *)
Lemma maps_genuine : forall cs T s, OInv cs T s -> maps_ok (genuine cs) s.
Proof. intros cs T s []. split; intros k p Hin; [apply ov_u0 in Hin|apply ov_p0 in Hin]; tauto. Qed.

Lemma step_genuine : forall cs T s e s' o,
  OInv cs T s -> step s e = (s', o) ->
  outs_ok (genuine (cs ++ chunks MTU_SIZE (accepted_now s e))) o.
Proof.
  intros cs T s e s' o Hi H.
  pose proof (maps_genuine _ _ _ Hi) as Hm.
  assert (Hw : forall d o, outs_ok (genuine cs) o -> outs_ok (genuine (cs ++ d)) o)
    by (intros d o0 Ho p Hin; apply genuine_mono; auto).
  assert (Hcl : forall ok s1 o1, client_closed s ok = (s1, o1) -> outs_ok (genuine cs) o1).
  { intros ok s1 o1 Hc. unfold client_closed in Hc.
    eapply shutdown_maps with (P := genuine cs) in Hc as (_ & Ho & _); auto. now left. }
  unfold step in H. destruct (s_done s) eqn:Ed.
  { apply pair_equal_spec in H as [_ <-]. apply outs_ok_nil. }
  destruct e; cbn [accepted_now].
  - apply Hw. destruct (s_write s) eqn:Ew.
    + destruct (on_packet s p syn_ok) as [[s1|] o1] eqn:Eo;
        apply on_packet_outs with (P := genuine cs) in Eo; try (now left).
      * destruct (pop_message (s_in s1)) as [[m i]|]; now apply pair_equal_spec in H as [_ <-].
      * now apply pair_equal_spec in H as [_ <-].
    + apply pair_equal_spec in H as [_ <-]. apply outs_ok_nil.
    + destruct (on_packet s p syn_ok) as [[s1|] o1] eqn:Eo;
        apply on_packet_outs with (P := genuine cs) in Eo; try (now left);
        now apply pair_equal_spec in H as [_ <-].
  - apply pair_equal_spec in H as [_ <-]. apply outs_ok_nil.
  - apply Hw. destruct (s_write s) eqn:Ew; try (apply pair_equal_spec in H as [_ <-]; apply outs_ok_nil).
    destruct (pop_message (s_in s)) as [[m i]|]; apply pair_equal_spec in H as [_ <-]; apply outs_ok_nil.
  - apply Hw. destruct (s_write s) eqn:Ew; try (apply pair_equal_spec in H as [_ <-]; apply outs_ok_nil).
    eauto.
  - apply pair_equal_spec in H as [_ <-]. apply outs_ok_nil.
  - apply Hw. destruct (s_write s) eqn:Ew; try (apply pair_equal_spec in H as [_ <-]; apply outs_ok_nil).
    destruct (_ && _); apply pair_equal_spec in H as [_ <-]; [|apply outs_ok_nil].
    intros q [Hq|[]]. discriminate.
  - apply Hw. destruct (s_write s) eqn:Ew; try (apply pair_equal_spec in H as [_ <-]; apply outs_ok_nil).
    eauto.
  - destruct (s_pending s) eqn:Ep; [|apply pair_equal_spec in H as [_ <-]; apply outs_ok_nil].
    destruct (s_read_closed s) eqn:Er; [apply pair_equal_spec in H as [_ <-]; apply outs_ok_nil|].
    unfold can_read. rewrite Ed, Er, Ep. cbn [negb andb]. unfold READ_BUFFER_SIZE in H.
    destruct (N.of_nat (length data) <=? 65535);
      [|apply pair_equal_spec in H as [_ <-]; apply outs_ok_nil].
    destruct data as [|b bs]; [apply pair_equal_spec in H as [_ <-]; apply outs_ok_nil|].
    cbn [andb] in H. unfold packetize in H.
    destruct (enqueue_all _ _ _) as [s1 o1] eqn:E. apply pair_equal_spec in H as [_ <-].
    set (nc := chunks MTU_SIZE (b :: bs)) in *.
    assert (Hcr : s_close_req s = false).
    { destruct (s_close_req s) eqn:Ec; auto. apply (ov_closed _ _ _ Hi) in Ec. congruence. }
    pose proof (ov_next _ _ _ Hi) as Hn. rewrite Hcr in Hn. cbn [b2n] in Hn.
    eapply enqueue_all_maps with (P := genuine (cs ++ nc)) in E as [_ Ho]; auto.
    + destruct Hm as [Hu Hp]. split; cbn [s_unacked s_pending]; intros k q Hin; apply genuine_mono; eauto.
    + intros p Hp. apply number_packets_In in Hp as (j & c & Hj & ->).
      assert (j < length nc)%nat by (apply nth_error_Some; congruence).
      right. cbn [data_packet p_seq p_payload]. split; [lia|].
      rewrite nth_error_app2 by lia.
      replace (N.to_nat (s_next s + N.of_nat j - 1) - length cs)%nat with j by lia. auto.
  - apply Hw. destruct (s_pending s); [|apply pair_equal_spec in H as [_ <-]; apply outs_ok_nil].
    destruct (s_read_closed s); [apply pair_equal_spec in H as [_ <-]; apply outs_ok_nil|]. eauto.
  - apply Hw. unfold flush in H. destruct (flush_keys _ _ _) as [s1 o1] eqn:E.
    apply pair_equal_spec in H as [_ <-].
    eapply flush_keys_maps with (P := genuine cs) in E as [_ Ho]; auto.
  - apply Hw. destruct (s_rto s); [|apply pair_equal_spec in H as [_ <-]; apply outs_ok_nil].
    apply resend_frame in H as (E1&E2&E3&E4&E5&E6&E7&E8&E9&E10&Ho).
    intros q Hq. apply Ho in Hq as [k Hk]. destruct Hm as [Hu _]. eauto.
  - apply Hw. destruct (i_timer (s_in s)); [|apply pair_equal_spec in H as [_ <-]; apply outs_ok_nil].
    assert (Hpa : outs_ok (genuine cs) (if ok then [OSend (plain_ack (s_in s))] else [])).
    { destruct ok; [|apply outs_ok_nil]. intros q [Hq|[]]. injection Hq as <-. now left. }
    destruct (can_close (s_in s)); now apply pair_equal_spec in H as [_ <-].
Qed.

(** chunks of a whole run *)
Fixpoint run_chunks (s : stream) (es : list event) : list bytes :=
  match es with
  | [] => []
  | e :: t => chunks MTU_SIZE (accepted_now s e) ++ run_chunks (fst (step s e)) t
  end.

Lemma MTU_pos : (0 < MTU_SIZE)%nat.
Proof. unfold MTU_SIZE. lia. Qed.

Lemma run_chunks_accepted : forall es s,
  concat (run_chunks s es) = accepted s es /\
  Forall (fun c => c <> [] /\ (length c <= MTU_SIZE)%nat) (run_chunks s es).
Proof.
  induction es as [|e es IH]; cbn [run_chunks accepted]; intros s; [split; [reflexivity|constructor]|].
  fold (accepted_now s e). destruct (chunks_spec MTU_SIZE (accepted_now s e) MTU_pos) as [H1 H2].
  destruct (IH (fst (step s e))) as [H3 H4]. split.
  - now rewrite concat_app, H1, H3.
  - apply Forall_app. auto.
Qed.

Lemma run_OInv : forall es cs T s os s' o,
  OInv cs T s -> outs_ok (genuine cs) os -> run s es = (s', o) ->
  OInv (cs ++ run_chunks s es) (T ++ taken s es) s' /\
  outs_ok (genuine (cs ++ run_chunks s es)) (os ++ o).
Proof.
  induction es as [|e es IH]; cbn [run taken run_chunks]; intros cs T s os s' o Hi Ho H.
  - apply pair_equal_spec in H as [<- <-]. rewrite !app_nil_r. auto.
  - destruct (step s e) as [s1 o1] eqn:Es. destruct (run s1 es) as [s2 o2] eqn:Er.
    apply pair_equal_spec in H as [<- <-]. fold (taken_now s e). cbn [fst].
    pose proof (step_genuine _ _ _ _ _ _ Hi Es) as Hg.
    eapply step_OInv in Es; eauto.
    eapply IH with (os := os ++ o1) in Er; eauto.
    + rewrite !app_assoc in *. exact Er.
    + apply outs_ok_app; auto. intros p Hp. apply genuine_mono. auto.
Qed.

Lemma sender_keeps : forall base initial es s o,
  run (stream_new base initial) es = (s, o) ->
  let T := taken (stream_new base initial) es in
  exists cs : list bytes,
    concat cs = accepted (stream_new base initial) es /\
    Forall (fun c => c <> [] /\ (length c <= 1812)%nat) cs /\
    (forall j c, nth_error cs j = Some c ->
       let n := 1 + N.of_nat j in
       (exists p, (nget n (s_unacked s) = Some p \/ nget n (s_pending s) = Some p) /\
                  p_seq p = n /\ p_payload p = c) \/
       (exists q, In q T /\ acks q n)) /\
    (forall p, In p (sent o) -> p_payload p <> [] ->
       1 <= p_seq p /\ nth_error cs (N.to_nat (p_seq p - 1)) = Some (p_payload p)) /\
    (length (s_unacked s) <= 128)%nat.
Proof.
  intros base initial es s o H T.
  exists (run_chunks (stream_new base initial) es).
  destruct (run_chunks_accepted es (stream_new base initial)) as [Hc Hf].
  eapply run_OInv with (cs := []) (T := []) (os := []) in H;
    [|apply OInv_new|apply outs_ok_nil]. cbn [app] in H. destruct H as [Hi Ho].
  fold T in Hi. set (cs := run_chunks _ _) in *.
  split; auto. split; auto. split; [|split].
  - intros j c Hj n.
    assert (Hjl : (j < length cs)%nat) by (apply nth_error_Some; congruence).
    pose proof (ov_next _ _ _ Hi) as Hn.
    assert (n < s_next s) by (unfold n; destruct (s_close_req s); cbn [b2n] in Hn; lia).
    destruct (ov_keep _ _ _ Hi n) as [Hk|[Hk|Hk]]; [lia|auto| | |auto].
    + left. apply nget_Some_nkeys in Hk as [p Hp]. exists p. split; auto.
      apply nget_In in Hp. apply (ov_u _ _ _ Hi) in Hp as (A & B & C & D). split; auto. apply D.
      replace (N.to_nat (n - 1)) with j by lia. auto.
    + left. apply nget_Some_nkeys in Hk as [p Hp]. exists p. split; auto.
      apply nget_In in Hp. apply (ov_p _ _ _ Hi) in Hp as (A & B & C & D). split; auto. apply D.
      replace (N.to_nat (n - 1)) with j by lia. auto.
  - intros p Hp Hne. apply In_sent in Hp. apply Ho in Hp as [Hp|Hp]; [congruence|auto].
  - exact (ov_len _ _ _ Hi).
Qed.

(** ** Two endpoints over a network that drops, duplicates, delays and reorders *)
Lemma run_app_eq : forall es1 es2 s,
  run s (es1 ++ es2) =
  (fst (run (fst (run s es1)) es2), snd (run s es1) ++ snd (run (fst (run s es1)) es2)).
Proof.
  induction es1 as [|e es1 IH]; cbn [run app]; intros es2 s.
  - cbn. destruct (run s es2); reflexivity.
  - destruct (step s e) as [s1 o1]. rewrite IH. destruct (run s1 es1) as [s2 o2].
    cbn [fst snd]. now rewrite app_assoc.
Qed.

Lemma taken_In : forall es s p, In p (taken s es) -> exists ok, In (EPacket p ok) es.
Proof.
  induction es as [|e es IH]; cbn [taken]; intros s p H; [contradiction|].
  apply in_app_or in H as [H|H].
  - destruct e; try contradiction. destruct (can_take s); cbn in H; [|contradiction].
    destruct H as [<-|[]]. exists syn_ok. now left.
  - apply IH in H as [ok Hok]. exists ok. now right.
Qed.

Lemma trace_app_In : forall base initial es e p,
  In p (sent (trace base initial es)) -> In p (sent (trace base initial (es ++ [e]))).
Proof.
  intros base initial es e p H. unfold trace in *. rewrite run_app_eq. cbn [snd].
  rewrite sent_app. apply in_or_app. now left.
Qed.

Lemma joint_packets : forall ia ib ea eb, joint ia ib ea eb ->
  (forall p ok, In (EPacket p ok) ea -> In p (sent (trace 0 ib eb))) /\
  (forall p ok, In (EPacket p ok) eb -> In p (sent (trace 0 ia ea))).
Proof.
  induction 1 as [|ea eb e Hj [IH1 IH2] Ha|ea eb e Hj [IH1 IH2] Ha]; split; intros p ok Hin;
    try contradiction.
  - apply in_app_or in Hin as [Hin|[Hin|[]]]; eauto. subst e. exact Ha.
  - apply trace_app_In. eauto.
  - apply trace_app_In. eauto.
  - apply in_app_or in Hin as [Hin|[Hin|[]]]; eauto. subst e. exact Ha.
Qed.

Lemma joint_sym : forall ia ib ea eb, joint ia ib ea eb -> joint ib ia eb ea.
Proof. induction 1; [constructor|apply joint_b; auto|apply joint_a; auto]. Qed.

Lemma joint_prefix : forall ia ib ea eb, joint ia ib ea eb ->
  prefix (client_bytes (trace 0 ib eb))
         (initial_bytes ib ++ accepted (stream_new 0 ia) ea).
Proof.
  intros ia ib ea eb Hj. apply joint_packets in Hj as [_ Hp].
  destruct (run (stream_new 0 ia) ea) as [sa oa] eqn:Ea.
  pose proof (run_OInv ea [] [] _ [] _ _ (OInv_new 0 ia) (outs_ok_nil _) Ea) as [_ Ho].
  cbn [app] in Ho. destruct (run_chunks_accepted ea (stream_new 0 ia)) as [Hc _].
  rewrite <- Hc.
  destruct (run (stream_new 0 ib) eb) as [sb ob] eqn:Eb.
  unfold trace at 1. rewrite Eb. cbn [snd].
  eapply stream_prefix; [|exact Eb].
  apply Forall_forall. intros p Hin. apply taken_In in Hin as [ok Hin].
  apply Hp in Hin. unfold trace in Hin. rewrite Ea in Hin. cbn [snd] in Hin.
  apply In_sent in Hin. apply Ho in Hin as [Hin|[H1 H2]]; [now left|].
  right. right. rewrite N.sub_0_r. exact H2.
Qed.

(** ** Other facts *)
Lemma arrived_le_highest : forall base initial es s o n,
  run (stream_new base initial) es = (s, o) -> s_done s = false ->
  arrived n (taken (stream_new base initial) es) -> n <= N.max base (i_seq (s_in s)) .
Proof.
  intros base initial es s o n H Hd Ha.
  eapply run_AInv in H; [|apply AInv_new]. cbn [app] in H. destruct H as [_ Hi].
  destruct (Hi Hd) as ([_ Hb _ _ Hr] & _). apply data_seqs_arrived in Ha.
  destruct (N.le_gt_cases n base); [lia|]. apply Hr in Ha; [|auto]. lia.
Qed.

Lemma highest_ge_base : forall base initial es s o,
  run (stream_new base initial) es = (s, o) -> s_done s = false -> base <= i_seq (s_in s).
Proof.
  intros base initial es s o H Hd.
  eapply run_AInv in H; [|apply AInv_new]. cbn [app] in H. destruct H as [_ Hi].
  destruct (Hi Hd) as ([_ Hb _ _ Hr] & _). auto.
Qed.

Lemma data_packet_survives : forall base initial es s o p ok,
  run (stream_new base initial) es = (s, o) ->
  can_take s = true -> s_close_req s = false ->
  p_syn p = false -> p_reset p = false ->
  (p_seq p <= base + 513 \/
   exists n, arrived n (taken (stream_new base initial) es) /\ p_seq p <= n + 513) ->
  s_done (fst (step s (EPacket p ok))) = false.
Proof.
  intros base initial es s o p ok H Hct Hcr Hsy Hre Hseq.
  unfold can_take in Hct. apply andb_true_iff in Hct as [Hd Hw]. apply negb_true_iff in Hd.
  assert (Hhi : p_seq p <= i_seq (s_in s) + 513).
  { pose proof (highest_ge_base _ _ _ _ _ H Hd). destruct Hseq as [?|(n & Ha & Hle)]; [lia|].
    pose proof (arrived_le_highest _ _ _ _ _ _ H Hd Ha). lia. }
  assert (Hon : exists s' o', on_packet s p ok = (Some s', o') /\ s_done s' = false /\
                              s_write s' = s_write s).
  { unfold on_packet. rewrite Hsy, Hre. cbn [andb].
    set (s1 := if p_close p then set_read_closed (set_in s (in_close (s_in s))) else s).
    assert (H1 : i_seq (s_in s1) = i_seq (s_in s) /\ s_close_req s1 = false /\ s_done s1 = false
                 /\ s_write s1 = s_write s)
      by (unfold s1; destruct (p_close p); cbn; auto).
    clearbody s1. destruct H1 as (A1 & A2 & A3 & A4).
    set (s2 := if p_no_ack p then s1 else handle_acks s1 (p_ack p) (p_nacks p)).
    assert (H2 : s_in s2 = s_in s1 /\ s_close_req s2 = false /\ s_done s2 = false
                 /\ s_write s2 = s_write s1).
    { unfold s2. destruct (p_no_ack p); auto.
      destruct (handle_acks_frame s1 (p_ack p) (p_nacks p)) as (?&?&?&?&?&?&?).
      repeat apply conj; congruence. }
    clearbody s2. destruct H2 as (B1 & B2 & B3 & B4).
    destruct (p_payload p) as [|b bs] eqn:Ep.
    - rewrite B2. cbn [andb]. eexists _, _. repeat apply conj; [reflexivity|auto|congruence].
    - destruct (handle_packet (s_in s2) (p_seq p) (b :: bs)) as [i|] eqn:Eh.
      + cbn [set_in s_close_req]. rewrite B2. cbn [andb]. eexists _, _.
        repeat apply conj; [reflexivity|auto|cbn; congruence].
      + apply handle_packet_none in Eh. unfold MAX_WINDOW_LOOKAHEAD in Eh. rewrite B1, A1 in Eh. lia. }
  destruct Hon as (s' & o' & Hon & Hd' & Hw').
  unfold step. rewrite Hd. destruct (s_write s); [|discriminate|].
  - rewrite Hon. destruct (pop_message (s_in s')) as [[m i]|]; cbn; auto.
  - rewrite Hon. auto.
Qed.

(** An ACK above everything ever numbered is ignored. *)
Lemma bogus_ack_ignored : forall s a n, s_next s < a -> handle_acks s a n = s.
Proof. intros s a n H. unfold handle_acks. replace (s_next s <? a) with true by lia. reflexivity. Qed.

(** When an expired RTO fires and a path exists, the oldest unacknowledged packets are sent
    again. *)
Lemma rto_resends : forall s n oks k p,
  s_done s = false -> s_rto s = true -> (1 <= n)%nat -> (1 <= s_window s)%nat ->
  s_unacked s = (k, p) :: tl (s_unacked s) -> hd true oks = true ->
  In (OSend p) (snd (step s (ERto n true oks))).
Proof.
  intros s n oks k p Hd Hr Hn Hw Hu Hok. unfold step. rewrite Hd, Hr. unfold resend.
  rewrite Hu. destruct n; [lia|]. destruct (s_window s) as [|w] eqn:Ew; [lia|].
  cbn [map snd firstn]. destruct (Nat.ltb 1 (S w)); cbn [snd send_some]; rewrite Hok; now left.
Qed.

(** Finishing on the ACK timer after CLOSE. *)
Lemma close_complete : forall base cs initial es s o ok n,
  Forall (carries base cs) (taken (stream_new base initial) es) ->
  run (stream_new base initial) es = (s, o) ->
  s_done s = false -> s_done (fst (step s (EAckTimer ok))) = true ->
  s_write s = WGet -> i_ready (s_in s) = [] ->
  (n <= length cs)%nat ->
  (n = 0%nat \/ arrived (base + N.of_nat n) (taken (stream_new base initial) es)) ->
  prefix (initial_bytes initial ++ concat (firstn n cs)) (client_bytes o).
Proof.
  intros base cs initial es s o ok n Hc H Hd Hdone Hw Hre Hn Harr.
  pose proof (highest_ge_base _ _ _ _ _ H Hd) as Hbase.
  assert (Hhi : base + N.of_nat n <= i_seq (s_in s)).
  { destruct Harr as [->|Ha]; [lia|].
    pose proof (arrived_le_highest _ _ _ _ _ _ H Hd Ha). lia. }
  pose proof (run_CInv base cs initial es [] _ [] _ _
     (CInv'_intro _ _ _ _ _ _ (CInv_new base cs initial)) Hc H) as [_ Hi].
  cbn [app] in Hi. destruct (Hi Hd) as (k & popped & [_ Hb _ Hf _ _ _ _] & Hfst & Hwr).
  assert (Hcl : can_close (s_in s) = true).
  { unfold step in Hdone. rewrite Hd in Hdone. destruct (i_timer (s_in s)); [|cbn in Hdone; congruence].
    destruct (can_close (s_in s)); [reflexivity|]. cbn in Hdone. congruence. }
  unfold can_close in Hcl. apply andb_true_iff in Hcl as [_ Hm].
  destruct (i_missing (s_in s)); [|discriminate].
  rewrite Hw in Hwr. cbn in Hwr. rewrite Hwr. rewrite Hre, app_nil_r in Hfst. rewrite <- Hfst.
  assert (Hnk : (n <= k)%nat) by lia.
  rewrite <- (firstn_skipn n (firstn k cs)), firstn_firstn, Nat.min_l by lia.
  rewrite concat_app, app_assoc. eexists; reflexivity.
Qed.
