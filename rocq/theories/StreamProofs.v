(** Stream-level lemmas: what the client reads. *)
From Coq Require Import List NArith Arith Lia Bool ZifyBool ZifyNat ZifyN.
From Verif Require Import ListUtil NMap StreamModel StreamSpec StreamInProofs.
Import ListNotations.
Open Scope N_scope.

(** ** Frame lemmas: which fields each function leaves alone *)
Lemma handle_acks_frame : forall s a n,
  s_in (handle_acks s a n) = s_in s /\ s_write (handle_acks s a n) = s_write s /\
  s_done (handle_acks s a n) = s_done s /\ s_next (handle_acks s a n) = s_next s /\
  s_pending (handle_acks s a n) = s_pending s /\
  s_close_req (handle_acks s a n) = s_close_req s /\
  s_read_closed (handle_acks s a n) = s_read_closed s.
Proof. intros. unfold handle_acks. destruct (_ <? _); cbn; repeat split; auto. Qed.

Lemma enqueue_frame : forall s p ok s' o, enqueue s p ok = (s', o) ->
  s_in s' = s_in s /\ s_write s' = s_write s /\ s_done s' = s_done s /\ client_bytes o = [] /\
  s_next s' = s_next s /\ s_window s' = s_window s /\ s_close_req s' = s_close_req s /\
  s_read_closed s' = s_read_closed s /\ s_rto s' = s_rto s.
Proof.
  intros s p ok s' o H. unfold enqueue in H.
  destruct (_ || _); injection H as <- <-; cbn; repeat split; auto.
Qed.

Lemma client_bytes_app : forall a b, client_bytes (a ++ b) = client_bytes a ++ client_bytes b.
Proof. intros. unfold client_bytes. apply flat_map_app. Qed.

Lemma sent_app : forall a b, sent (a ++ b) = sent a ++ sent b.
Proof. intros. unfold sent. apply flat_map_app. Qed.

Lemma enqueue_all_frame : forall ps s oks s' o, enqueue_all s ps oks = (s', o) ->
  s_in s' = s_in s /\ s_write s' = s_write s /\ s_done s' = s_done s /\ client_bytes o = [] /\
  s_next s' = s_next s /\ s_window s' = s_window s /\ s_close_req s' = s_close_req s /\
  s_read_closed s' = s_read_closed s /\ s_rto s' = s_rto s.
Proof.
  induction ps as [|p ps IH]; cbn [enqueue_all]; intros s oks s' o H.
  - injection H as <- <-. repeat split; auto.
  - destruct (enqueue s p (hd true oks)) as [s1 o1] eqn:E1.
    destruct (enqueue_all s1 ps (tl oks)) as [s2 o2] eqn:E2. injection H as <- <-.
    apply enqueue_frame in E1 as (?&?&?&?&?&?&?&?&?).
    apply IH in E2 as (?&?&?&?&?&?&?&?&?).
    rewrite client_bytes_app. repeat split; try congruence.
    replace (client_bytes o1) with (@nil N). auto.
Qed.

Lemma packetize_frame : forall s d oks s' o, packetize s d oks = (s', o) ->
  s_in s' = s_in s /\ s_write s' = s_write s /\ s_done s' = s_done s /\ client_bytes o = [].
Proof.
  intros s d oks s' o H. unfold packetize in H.
  destruct (enqueue_all _ _ _) as [s1 o1] eqn:E. injection H as <- <-.
  apply enqueue_all_frame in E as (?&?&?&?&_). cbn in *. auto.
Qed.

Lemma shutdown_frame : forall s ok s' o, shutdown s ok = (s', o) ->
  s_in s' = s_in s /\ s_write s' = s_write s /\ s_done s' = s_done s /\ client_bytes o = [].
Proof.
  intros s ok s' o H. unfold shutdown in H. destruct (s_close_req s).
  - injection H as <- <-. auto.
  - apply enqueue_frame in H as (?&?&?&?&_). cbn in *. auto.
Qed.

Lemma flush_keys_frame : forall ks s oks s' o, flush_keys s ks oks = (s', o) ->
  s_in s' = s_in s /\ s_write s' = s_write s /\ s_done s' = s_done s /\ client_bytes o = [] /\
  s_next s' = s_next s /\ s_window s' = s_window s /\ s_close_req s' = s_close_req s /\
  s_read_closed s' = s_read_closed s /\ s_rto s' = s_rto s.
Proof.
  induction ks as [|k ks IH]; cbn [flush_keys]; intros s oks s' o H.
  - injection H as <- <-. repeat split; auto.
  - destruct (nget k (s_pending s)); [|eauto].
    destruct (hd true oks).
    + destruct (flush_keys _ ks (tl oks)) as [s2 o2] eqn:E2. injection H as <- <-.
      apply IH in E2 as (?&?&?&?&?&?&?&?&?). cbn in *. repeat split; auto.
    + destruct (flush_keys _ ks (tl oks)) as [s2 o2] eqn:E2. injection H as <- <-.
      apply IH in E2 as (?&?&?&?&?&?&?&?&?). cbn in *. repeat split; auto.
Qed.

Lemma flush_frame : forall s oks s' o, flush s oks = (s', o) ->
  s_in s' = s_in s /\ s_write s' = s_write s /\ s_done s' = s_done s /\ client_bytes o = [].
Proof.
  intros s oks s' o H. unfold flush in H.
  destruct (flush_keys _ _ _) as [s1 o1] eqn:E. injection H as <- <-.
  apply flush_keys_frame in E as (?&?&?&?&_). cbn in *. auto.
Qed.

Lemma send_some_client : forall ps oks, client_bytes (send_some ps oks) = [].
Proof.
  induction ps as [|p ps IH]; cbn; intros oks; auto. rewrite client_bytes_app, IH.
  now destruct (hd true oks).
Qed.

Lemma resend_frame : forall s e path oks s' o, resend s e path oks = (s', o) ->
  s_in s' = s_in s /\ s_write s' = s_write s /\ s_done s' = s_done s /\ client_bytes o = [] /\
  s_next s' = s_next s /\ s_unacked s' = s_unacked s /\ s_pending s' = s_pending s /\
  s_close_req s' = s_close_req s /\ s_read_closed s' = s_read_closed s /\
  (s_window s' = s_window s \/ (1 < s_window s)%nat /\ s_window s' = (s_window s - 1)%nat) /\
  (forall p, In (OSend p) o -> exists k, In (k, p) (s_unacked s)).
Proof.
  intros s e path oks s' o H. unfold resend in H.
  destruct (s_unacked s) as [|u us] eqn:Eu.
  - injection H as <- <-. cbn. rewrite Eu. repeat apply conj; auto; intros p [].   
  - set (exp := firstn (s_window s) (firstn e (map snd (u :: us)))) in *.
    assert (Hsub : forall p, In p exp -> exists k, In (k, p) (u :: us)).
    { intros p Hp. unfold exp in Hp.
      assert (Hp' : In p (map snd (u :: us))).
      { rewrite <- (firstn_skipn e (map snd (u :: us))). apply in_or_app. left.
        rewrite <- (firstn_skipn (s_window s) (firstn e (map snd (u :: us)))).
        apply in_or_app. now left. }
      apply in_map_iff in Hp' as [[k q] [Hq Hin]]. cbn in Hq. subst. eauto. }
    assert (Hsend : forall ps oks p, In (OSend p) (send_some ps oks) -> In p ps).
    { clear. induction ps as [|q ps IH]; cbn [send_some]; intros oks0 p0 H; [exact H|].
      apply in_app_or in H as [H|H].
      - destruct (hd true oks0); cbn in H; [|tauto]. destruct H as [H|[]]. injection H as ->. now left.
      - right. eauto. }
    destruct exp as [|q qs] eqn:Ex.
    + injection H as <- <-. rewrite Eu. repeat apply conj; auto; intros p [].   
    + destruct path.
      * apply pair_equal_spec in H as [<- <-]. cbn [set_window s_in s_write s_done s_next s_unacked s_pending
          s_close_req s_read_closed s_window]. rewrite Eu, send_some_client.
        repeat apply conj; auto.
        -- destruct (Nat.ltb_spec 1 (s_window s)); auto.
        -- intros p Hp. apply Hsub. eapply Hsend; eauto.
      * injection H as <- <-. rewrite Eu. repeat apply conj; auto; intros p [].   
Qed.

(** ** Invariant: the client gets a prefix *)
Definition data_seqs (ps : list packet) : list N :=
  map p_seq (filter (fun p => match p_payload p with [] => false | _ => true end) ps).

Lemma data_seqs_app : forall a b, data_seqs (a ++ b) = data_seqs a ++ data_seqs b.
Proof. intros. unfold data_seqs. now rewrite filter_app, map_app. Qed.

Lemma data_seqs_arrived : forall n ps, In n (data_seqs ps) <-> arrived n ps.
Proof.
  intros n ps. unfold data_seqs, arrived. rewrite in_map_iff. split.
  - intros (p & Hp & Hin). apply filter_In in Hin as [Hin Hne]. exists p.
    repeat split; auto. destruct (p_payload p); congruence.
  - intros (p & Hin & Hp & Hne). exists p. split; auto. apply filter_In. split; auto.
    destruct (p_payload p); congruence.
Qed.

Section Client.
Variable base : N.
Variable cs : list bytes.
Variable initial : option bytes.

(** [popped] = messages taken out of the ready queue for writing *)
Definition written_ok (w : wstate) (cb : bytes) (popped : list bytes) : Prop :=
  match w with
  | WGet => cb = initial_bytes initial ++ concat popped
  | WWrite off m => cb ++ skipn off m = initial_bytes initial ++ concat popped
  | WClosed => prefix cb (initial_bytes initial ++ concat popped)
  end.

Definition CInv (rcv : list N) (s : stream) (cb : bytes) : Prop :=
  exists k popped,
    IInv base cs rcv (s_in s) k /\ firstn k cs = popped ++ i_ready (s_in s) /\
    written_ok (s_write s) cb popped.

Lemma written_ok_prefix : forall w cb popped, written_ok w cb popped ->
  prefix cb (initial_bytes initial ++ concat popped).
Proof.
  intros [|off m|] cb popped H; cbn in H; auto.
  - exists []. now rewrite app_nil_r.
  - exists (skipn off m). auto.
Qed.

Lemma prefix_app_r : forall A (a b c : list A), prefix a b -> prefix a (b ++ c).
Proof. intros A a b c [d ->]. exists (d ++ c). now rewrite app_assoc. Qed.

Lemma CInv_prefix : forall rcv s cb, CInv rcv s cb -> prefix cb (initial_bytes initial ++ concat cs).
Proof.
  intros rcv s cb (k & popped & Hi & Hf & Hw).
  apply written_ok_prefix in Hw. rewrite <- (firstn_skipn k cs), Hf, !concat_app, !app_assoc.
  now apply prefix_app_r, prefix_app_r.
Qed.

Lemma CInv_new : CInv [] (stream_new base initial) [].
Proof.
  exists 0%nat, []. split; [apply IInv_new|]. split; [reflexivity|].
  unfold stream_new, written_ok. destruct initial; cbn; [now rewrite app_nil_r|reflexivity].
Qed.

(** moving [CInv] along steps that touch neither the inbound half nor the write state *)
Lemma CInv_frame : forall rcv s s' cb,
  CInv rcv s cb -> s_in s' = s_in s -> s_write s' = s_write s -> CInv rcv s' cb.
Proof. intros rcv s s' cb (k & p & H) E1 E2. exists k, p. now rewrite E1, E2. Qed.

Lemma IInv_timer : forall rcv i k c t,
  IInv base cs rcv i k ->
  IInv base cs rcv (mkIn (i_missing i) (i_pending i) (i_ready i) (i_seq i) c t) k.
Proof. intros rcv i k c t []. constructor; auto. Qed.

Lemma IInv_ready : forall rcv i k r,
  IInv base cs rcv i k ->
  IInv base cs rcv (mkIn (i_missing i) (i_pending i) r (i_seq i) (i_close i) (i_timer i)) k.
Proof. intros rcv i k c []. constructor; auto. Qed.

Lemma CInv_pop : forall rcv s cb m i,
  CInv rcv s cb -> s_write s = WGet -> pop_message (s_in s) = Some (m, i) ->
  CInv rcv (set_write (set_in s i) (WWrite 0 m)) cb.
Proof.
  intros rcv s cb m i (k & popped & Hi & Hf & Hw) Ew Hp.
  unfold pop_message in Hp. destruct (i_ready (s_in s)) as [|m0 t] eqn:Er; [discriminate|].
  injection Hp as <- <-. exists k, (popped ++ [m0]). cbn [set_write set_in s_in s_write i_ready].
  split; [now apply IInv_ready|]. split.
  - rewrite Hf, <- app_assoc. reflexivity.
  - rewrite Ew in Hw. cbn in Hw |- *. rewrite Hw, concat_app, <- app_assoc. cbn.
    now rewrite app_nil_r.
Qed.

Lemma on_packet_client : forall s p ok r o, on_packet s p ok = (r, o) -> client_bytes o = [].
Proof.
  intros s p ok r o H. unfold on_packet in H.
  assert (Ho : client_bytes (if p_syn p && ok then [OSend syn_ack] else []) = [])
    by (destruct (p_syn p && ok); reflexivity).
  destruct (p_syn p && negb ok); [apply pair_equal_spec in H as [_ <-]; reflexivity|].
  destruct (p_reset p); [now apply pair_equal_spec in H as [_ <-]|].
  match type of H with match ?x with _ => _ end = _ => destruct x as [s3|] end;
    [destruct (_ && _ && _)|]; now apply pair_equal_spec in H as [_ <-].
Qed.

Lemma on_packet_CInv : forall rcv s cb p ok s' o,
  CInv rcv s cb -> carries base cs p -> (s_write s = WGet \/ s_write s = WClosed) ->
  on_packet s p ok = (Some s', o) ->
  CInv (data_seqs [p] ++ rcv) s' cb /\ s_write s' = s_write s /\ s_done s' = s_done s /\
  client_bytes o = [].
Proof.
  intros rcv s cb p ok s' o (k & popped & Hi & Hf & Hw) Hc Hwr H.
  unfold on_packet in H.
  destruct (p_syn p && negb ok); [discriminate|].
  destruct (p_reset p); [discriminate|].
  set (s1 := if p_close p then set_read_closed (set_in s (in_close (s_in s))) else s) in *.
  assert (H1 : IInv base cs rcv (s_in s1) k /\ i_ready (s_in s1) = i_ready (s_in s) /\
               s_write s1 = s_write s /\ s_done s1 = s_done s).
  { unfold s1. destruct (p_close p); cbn; auto. repeat apply conj; auto. now apply IInv_timer. }
  clearbody s1. destruct H1 as (Hi1 & Hr1 & Hw1 & Hd1).
  set (s2 := if p_no_ack p then s1 else handle_acks s1 (p_ack p) (p_nacks p)) in *.
  assert (H2 : s_in s2 = s_in s1 /\ s_write s2 = s_write s1 /\ s_done s2 = s_done s1).
  { unfold s2. destruct (p_no_ack p); auto.
    destruct (handle_acks_frame s1 (p_ack p) (p_nacks p)) as (?&?&?&_). auto. }
  clearbody s2. destruct H2 as (Hi2 & Hw2 & Hd2).
  assert (Ho : client_bytes (if p_syn p && ok then [OSend syn_ack] else []) = [])
    by (destruct (p_syn p && ok); reflexivity).
  destruct (p_payload p) as [|b bs] eqn:Ep.
  - destruct (_ && _ && _); [discriminate|]. injection H as <- <-.
    unfold data_seqs. cbn [filter]. rewrite Ep. cbn [map app].
    repeat apply conj; auto; try congruence. exists k, popped. rewrite Hi2, Hr1, Hw2, Hw1. auto.
  - destruct (handle_packet (s_in s2) (p_seq p) (b :: bs)) as [i|] eqn:Eh; [|discriminate].
    destruct (_ && _ && _); [discriminate|]. injection H as <- <-.
    unfold data_seqs. cbn [filter]. rewrite Ep. cbn [map app].
    cbn [set_in s_write s_done].
    repeat apply conj; auto; try congruence.
    rewrite Hi2 in Eh.
    destruct Hc as [Hc|Hc]; [congruence|]. rewrite Ep in Hc.
    eapply handle_packet_inv in Eh as (k' & X & Hk & Hi' & Hr & Hfst & _); eauto.
    exists k', popped. cbn [set_in s_in s_write]. rewrite Hr, Hr1.
    split; [exact Hi'|]. split; [rewrite Hfst, Hf, app_assoc; reflexivity|].
    now rewrite Hw2, Hw1.
Qed.

Definition taken_now (s : stream) (e : event) : list packet :=
  match e with EPacket p _ => if can_take s then [p] else [] | _ => [] end.

Lemma written_closed : forall w cb popped,
  written_ok w cb popped -> written_ok WClosed cb popped.
Proof. intros. cbn. eapply written_ok_prefix; eauto. Qed.

Lemma CInv_closed : forall rcv s s' cb,
  CInv rcv s cb -> s_in s' = s_in s -> s_write s' = WClosed -> CInv rcv s' cb.
Proof.
  intros rcv s s' cb (k & p & Hi & Hf & Hw) E1 E2. exists k, p. rewrite E1, E2.
  repeat apply conj; auto. eapply written_closed; eauto.
Qed.

Lemma client_closed_frame : forall s ok s' o, client_closed s ok = (s', o) ->
  s_in s' = s_in s /\ s_write s' = WClosed /\ s_done s' = s_done s /\ client_bytes o = [].
Proof.
  intros s ok s' o H. unfold client_closed in H. apply shutdown_frame in H as (?&?&?&?).
  cbn in *. auto.
Qed.

(** one step preserves "full invariant while running, prefix always" *)
Definition CInv' (rcv : list N) (s : stream) (cb : bytes) : Prop :=
  prefix cb (initial_bytes initial ++ concat cs) /\ (s_done s = false -> CInv rcv s cb).

Lemma CInv'_intro : forall rcv s cb, CInv rcv s cb -> CInv' rcv s cb.
Proof. intros. split; auto. eapply CInv_prefix; eauto. Qed.

Lemma step_CInv : forall rcv s cb e s' o,
  CInv' rcv s cb -> Forall (carries base cs) (taken_now s e) ->
  step s e = (s', o) ->
  CInv' (data_seqs (taken_now s e) ++ rcv) s' (cb ++ client_bytes o).
Proof.
  intros rcv s cb e s' o [Hpre Hinv] Hc H. unfold step in H.
  destruct (s_done s) eqn:Ed.
  { injection H as <- <-. cbn. rewrite app_nil_r. split; auto. congruence. }
  specialize (Hinv eq_refl).
  assert (Hnop : CInv' rcv s cb) by now apply CInv'_intro.
  destruct e; cbn [taken_now] in *; try (change (data_seqs [] ++ rcv) with rcv).
  - (* EPacket *)
    unfold can_take in *. rewrite Ed in *. cbn [negb andb] in *.
    destruct (s_write s) eqn:Ew.
    + inversion Hc as [|? ? Hc1 _]; subst.
      destruct (on_packet s p syn_ok) as [[s1|] o1] eqn:Eo.
      * eapply on_packet_CInv in Eo as (Hi & Hw & Hd & Hcb); eauto.
        destruct (pop_message (s_in s1)) as [[m i]|] eqn:Ep; injection H as <- <-;
          rewrite Hcb, app_nil_r; apply CInv'_intro; auto.
        eapply CInv_pop; eauto. congruence.
      * injection H as <- <-.
        apply on_packet_client in Eo. rewrite Eo.
        rewrite app_nil_r. split; auto; cbn; discriminate.
    + injection H as <- <-. cbn. rewrite app_nil_r. auto.
    + inversion Hc as [|? ? Hc1 _]; subst.
      destruct (on_packet s p syn_ok) as [[s1|] o1] eqn:Eo.
      * eapply on_packet_CInv in Eo as (Hi & Hw & Hd & Hcb); eauto.
        injection H as <- <-. rewrite Hcb, app_nil_r; apply CInv'_intro; auto.
      * injection H as <- <-.
        apply on_packet_client in Eo. rewrite Eo.
        rewrite app_nil_r. split; auto; cbn; discriminate.
  - injection H as <- <-. cbn. rewrite app_nil_r. auto.
  - destruct (s_write s) eqn:Ew; try (injection H as <- <-; cbn; rewrite app_nil_r; now auto).
    destruct (pop_message (s_in s)) as [[m i]|] eqn:Ep; injection H as <- <-;
      cbn [client_bytes flat_map]; rewrite app_nil_r; apply CInv'_intro; auto.
    eapply CInv_pop; eauto.
  - destruct (s_write s) eqn:Ew.
    + apply client_closed_frame in H as (E1 & E2 & E3 & E4). rewrite E4, app_nil_r.
      apply CInv'_intro. eapply CInv_closed; eauto.
    + injection H as <- <-. cbn. rewrite app_nil_r. auto.
    + injection H as <- <-. cbn. rewrite app_nil_r. apply CInv'_intro.
      eapply CInv_frame; eauto.
  - injection H as <- <-. cbn. rewrite app_nil_r. split; auto; discriminate.
  - (* EWrote *)
    destruct (s_write s) as [|off m|] eqn:Ew;
      try (injection H as <- <-; cbn; rewrite app_nil_r; now auto).
    destruct (Nat.leb_spec 1 n) as [Hn|Hn];
      [|injection H as <- <-; cbn; rewrite app_nil_r; auto].
    destruct (Nat.leb_spec (off + n) (length m)) as [Hl|Hl];
      [|injection H as <- <-; cbn; rewrite app_nil_r; auto].
    cbn [andb] in H. injection H as <- <-. apply CInv'_intro.
    destruct Hinv as (k & popped & Hi & Hf & Hw). exists k, popped.
    cbn [set_write s_in s_write client_bytes flat_map]. rewrite app_nil_r.
    repeat apply conj; auto. rewrite Ew in Hw. cbn in Hw.
    assert (Hsk : skipn off m = firstn n (skipn off m) ++ skipn (off + n) m).
    { rewrite <- skipn_add. symmetry. apply firstn_skipn. }
    rewrite Hsk, app_assoc in Hw. destruct (Nat.eqb_spec (n + off) (length m)) as [Heq|Hne].
    + cbn. rewrite (@skipn_all2 _ (off + n) m) in Hw by lia. now rewrite app_nil_r in Hw.
    + cbn. exact Hw.
  - destruct (s_write s) eqn:Ew; try (injection H as <- <-; cbn; rewrite app_nil_r; now auto).
    apply client_closed_frame in H as (E1 & E2 & E3 & E4). rewrite E4, app_nil_r.
    apply CInv'_intro. eapply CInv_closed; eauto.
  - destruct (s_pending s); [|injection H as <- <-; cbn; rewrite app_nil_r; auto].
    destruct (s_read_closed s); [injection H as <- <-; cbn; rewrite app_nil_r; auto|].
    destruct (_ && _); [|injection H as <- <-; cbn; rewrite app_nil_r; auto].
    apply packetize_frame in H as (E1 & E2 & E3 & E4). rewrite E4, app_nil_r.
    apply CInv'_intro. eapply CInv_frame; eauto.
  - destruct (s_pending s); [|injection H as <- <-; cbn; rewrite app_nil_r; auto].
    destruct (s_read_closed s); [injection H as <- <-; cbn; rewrite app_nil_r; auto|].
    apply client_closed_frame in H as (E1 & E2 & E3 & E4). rewrite E4, app_nil_r.
    apply CInv'_intro. eapply CInv_closed; eauto.
  - apply flush_frame in H as (E1 & E2 & E3 & E4). rewrite E4, app_nil_r.
    apply CInv'_intro. eapply CInv_frame; eauto.
  - destruct (s_rto s); [|injection H as <- <-; cbn; rewrite app_nil_r; auto].
    apply resend_frame in H as (E1 & E2 & E3 & E4 & _). rewrite E4, app_nil_r.
    apply CInv'_intro. eapply CInv_frame; eauto.
  - destruct (i_timer (s_in s)); [|injection H as <- <-; cbn; rewrite app_nil_r; auto].
    destruct (can_close (s_in s)); injection H as <- <-;
      replace (client_bytes (if ok then [OSend (plain_ack (s_in s))] else [])) with (@nil N)
        by (destruct ok; reflexivity); rewrite app_nil_r.
    + split; auto; discriminate.
    + apply CInv'_intro. destruct Hinv as (k & popped & Hi & Hf & Hw).
      exists k, popped. cbn [set_in s_in s_write]. repeat apply conj; auto. now apply IInv_timer.
Qed.

Lemma IInv_rcv_equiv : forall r1 r2 i k, (forall n, In n r1 <-> In n r2) ->
  IInv base cs r1 i k -> IInv base cs r2 i k.
Proof. intros r1 r2 i k H []. constructor; auto. intros s Hs. rewrite <- H. auto. Qed.

Lemma CInv'_rcv_equiv : forall r1 r2 s cb, (forall n, In n r1 <-> In n r2) ->
  CInv' r1 s cb -> CInv' r2 s cb.
Proof.
  intros r1 r2 s cb H [Hp Hi]. split; auto. intros Hd. destruct (Hi Hd) as (k & p & H1 & H2).
  exists k, p. split; auto. eapply IInv_rcv_equiv; eauto.
Qed.

Lemma run_CInv : forall es rcv s cb s' o,
  CInv' rcv s cb -> Forall (carries base cs) (taken s es) ->
  run s es = (s', o) ->
  CInv' (rcv ++ data_seqs (taken s es)) s' (cb ++ client_bytes o).
Proof.
  induction es as [|e es IH]; cbn [run taken]; intros rcv s cb s' o Hi Hc H.
  - injection H as <- <-. cbn. now rewrite !app_nil_r.
  - destruct (step s e) as [s1 o1] eqn:Es. destruct (run s1 es) as [s2 o2] eqn:Er.
    injection H as <- <-. cbn [fst] in Hc.
    fold (taken_now s e) in Hc |- *.
    apply Forall_app in Hc as [Hc1 Hc2].
    eapply step_CInv in Es; eauto.
    cbn [fst].
    eapply IH in Er; eauto. rewrite client_bytes_app, app_assoc.
    eapply CInv'_rcv_equiv; [|exact Er].
    intros n. rewrite data_seqs_app, !in_app_iff. tauto.
Qed.

Lemma stream_prefix : forall es s' o,
  Forall (carries base cs) (taken (stream_new base initial) es) ->
  run (stream_new base initial) es = (s', o) ->
  prefix (client_bytes o) (initial_bytes initial ++ concat cs).
Proof.
  intros es s' o Hc H. eapply run_CInv in H; eauto; [|apply CInv'_intro, CInv_new].
  destruct H as [Hp _]. exact Hp.
Qed.

(** Everything that arrived without a gap can be read. *)
Lemma write_out : forall m s off,
  s_done s = false -> s_write s = WWrite off m -> (off < length m)%nat ->
  exists s', run s [EWrote (length m - off)] = (s', [OClient (skipn off m)]) /\
    s_done s' = false /\ s_write s' = WGet /\ s_in s' = s_in s.
Proof.
  intros m s off Hd Hw Hl. cbn [run]. unfold step. rewrite Hd, Hw.
  replace (Nat.leb 1 (length m - off)) with true by lia.
  replace (Nat.leb (off + (length m - off)) (length m)) with true by lia. cbn [andb].
  replace (Nat.eqb (length m - off + off) (length m)) with true by lia.
  eexists. cbn [app]. rewrite firstn_all2 by (rewrite skipn_length; lia).
  split; [reflexivity|]. cbn. auto.
Qed.

(** a message being written still has bytes left *)
Definition WInv (s : stream) : Prop :=
  match s_write s with WWrite off m => (off < length m)%nat | _ => True end.

Hypothesis cs_nonempty : Forall (fun c => c <> []) cs.

Lemma CInv_ready_nonempty : forall rcv s cb, CInv rcv s cb ->
  Forall (fun c => c <> []) (i_ready (s_in s)).
Proof.
  intros rcv s cb (k & popped & _ & Hf & _).
  assert (H : Forall (fun c => c <> []) (firstn k cs)).
  { apply Forall_forall. intros x Hx. apply In_firstn in Hx.
    rewrite Forall_forall in cs_nonempty. auto. }
  rewrite Hf in H. apply Forall_app in H. tauto.
Qed.

Lemma pop_WInv : forall rcv s cb m i,
  CInv rcv s cb -> pop_message (s_in s) = Some (m, i) -> (0 < length m)%nat.
Proof.
  intros rcv s cb m i Hi Hp. apply CInv_ready_nonempty in Hi. unfold pop_message in Hp.
  destruct (i_ready (s_in s)) as [|m0 t]; [discriminate|]. injection Hp as <- <-.
  inversion Hi as [|? ? Hne _]; subst. destruct m0; [congruence|cbn; lia].
Qed.

Lemma step_WInv : forall rcv s cb e s' o,
  CInv' rcv s cb -> Forall (carries base cs) (taken_now s e) ->
  WInv s -> step s e = (s', o) -> WInv s'.
Proof.
  intros rcv s cb e s' o [_ Hinv] Hc Hw H. unfold step in H.
  destruct (s_done s) eqn:Ed; [now injection H as <- <-|]. specialize (Hinv eq_refl).
  destruct e; cbn [taken_now] in *.
  - unfold can_take in *. rewrite Ed in *. cbn [negb andb] in *.
    destruct (s_write s) eqn:Ew; try (now injection H as <- <-).
    + inversion Hc as [|? ? Hc1 _]; subst.
      destruct (on_packet s p syn_ok) as [[s1|] o1] eqn:Eo.
      * eapply on_packet_CInv in Eo as (Hi & Hw1 & Hd & Hcb); eauto.
        destruct (pop_message (s_in s1)) as [[m i]|] eqn:Ep; injection H as <- <-.
        -- unfold WInv. cbn. eapply pop_WInv; eauto.
        -- unfold WInv. rewrite Hw1, Ew. exact I.
      * injection H as <- <-. exact Hw.
    + inversion Hc as [|? ? Hc1 _]; subst.
      destruct (on_packet s p syn_ok) as [[s1|] o1] eqn:Eo.
      * eapply on_packet_CInv in Eo as (Hi & Hw1 & Hd & Hcb); eauto.
        injection H as <- <-. unfold WInv. rewrite Hw1, Ew. exact I.
      * injection H as <- <-. exact Hw.
  - now injection H as <- <-.
  - destruct (s_write s) eqn:Ew; try (now injection H as <- <-).
    destruct (pop_message (s_in s)) as [[m i]|] eqn:Ep; injection H as <- <-; auto.
    unfold WInv. cbn. eapply pop_WInv; eauto.
  - destruct (s_write s) eqn:Ew; try (now injection H as <- <-).
    apply client_closed_frame in H as (E1 & E2 & E3 & E4). unfold WInv. now rewrite E2.
  - now injection H as <- <-.
  - destruct (s_write s) as [|off m|] eqn:Ew; try (now injection H as <- <-).
    destruct (Nat.leb_spec 1 n) as [Hn|Hn]; [|now injection H as <- <-].
    destruct (Nat.leb_spec (off + n) (length m)) as [Hl|Hl]; [|now injection H as <- <-].
    cbn [andb] in H. injection H as <- <-. unfold WInv. cbn.
    destruct (Nat.eqb_spec (n + off) (length m)); auto. lia.
  - destruct (s_write s) eqn:Ew; try (now injection H as <- <-).
    apply client_closed_frame in H as (E1 & E2 & E3 & E4). unfold WInv. now rewrite E2.
  - destruct (s_pending s); [|now injection H as <- <-].
    destruct (s_read_closed s); [now injection H as <- <-|].
    destruct (_ && _); [|now injection H as <- <-].
    apply packetize_frame in H as (E1 & E2 & E3 & E4). unfold WInv. now rewrite E2.
  - destruct (s_pending s); [|now injection H as <- <-].
    destruct (s_read_closed s); [now injection H as <- <-|].
    apply client_closed_frame in H as (E1 & E2 & E3 & E4). unfold WInv. now rewrite E2.
  - apply flush_frame in H as (E1 & E2 & E3 & E4). unfold WInv. now rewrite E2.
  - destruct (s_rto s); [|now injection H as <- <-].
    apply resend_frame in H as (E1 & E2 & E3 & E4 & _). unfold WInv. now rewrite E2.
  - destruct (i_timer (s_in s)); [|now injection H as <- <-].
    destruct (can_close (s_in s)); injection H as <- <-; exact Hw.
Qed.

Lemma run_WInv : forall es rcv s cb s' o,
  CInv' rcv s cb -> Forall (carries base cs) (taken s es) -> WInv s ->
  run s es = (s', o) -> WInv s'.
Proof.
  induction es as [|e es IH]; cbn [run taken]; intros rcv s cb s' o Hi Hc Hw H.
  - now injection H as <- <-.
  - destruct (step s e) as [s1 o1] eqn:Es. destruct (run s1 es) as [s2 o2] eqn:Er.
    injection H as <- <-. cbn [fst] in Hc. fold (taken_now s e) in Hc.
    apply Forall_app in Hc as [Hc1 Hc2].
    eapply IH; [| |eapply step_WInv; eauto|exact Er]; eauto.
    eapply step_CInv; eauto.
Qed.

Lemma run_app : forall es1 es2 s s1 s2 o1 o2,
  run s es1 = (s1, o1) -> run s1 es2 = (s2, o2) -> run s (es1 ++ es2) = (s2, o1 ++ o2).
Proof.
  induction es1 as [|e es1 IH]; cbn [run app]; intros es2 s s1 s2 o1 o2 H1 H2.
  - now injection H1 as <- <-.
  - destruct (step s e) as [sa oa]. destruct (run sa es1) as [sb ob] eqn:Eb.
    injection H1 as <- <-. rewrite (IH _ _ _ _ _ _ Eb H2), app_assoc. reflexivity.
Qed.

Lemma hand_over_all : forall n rcv s cb,
  CInv rcv s cb -> s_done s = false -> s_write s = WGet ->
  length (i_ready (s_in s)) = n ->
  exists es2 s2 o2 k, Forall handing_over es2 /\ run s es2 = (s2, o2) /\
    IInv base cs rcv (s_in s) k /\
    cb ++ client_bytes o2 = initial_bytes initial ++ concat (firstn k cs).
Proof.
  induction n as [|n IH]; intros rcv s cb Hi Hd Hw Hn.
  - destruct Hi as (k & popped & Hi & Hf & Hwo).
    exists [], s, [], k. repeat apply conj; auto. cbn [client_bytes flat_map]. rewrite app_nil_r.
    rewrite Hw in Hwo. cbn in Hwo. rewrite Hwo, Hf.
    destruct (i_ready (s_in s)); [|discriminate]. now rewrite app_nil_r.
  - pose proof (CInv_ready_nonempty _ _ _ Hi) as Hne.
    destruct (i_ready (s_in s)) as [|m t] eqn:Er; [discriminate|].
    assert (Hpop : pop_message (s_in s) =
      Some (m, mkIn (i_missing (s_in s)) (i_pending (s_in s)) t (i_seq (s_in s))
                 (i_close (s_in s)) (i_timer (s_in s)))) by (unfold pop_message; now rewrite Er).
    pose proof (CInv_pop _ _ _ _ _ Hi Hw Hpop) as Hi1.
    set (s1 := set_write _ _) in Hi1.
    assert (Hrun1 : run s [EIdle] = (s1, [])).
    { cbn [run]. unfold step. rewrite Hd, Hw, Hpop. reflexivity. }
    assert (Hml : (0 < length m)%nat).
    { inversion Hne as [|? ? Hm _]; subst. destruct m; [congruence|cbn; lia]. }
    destruct (write_out m s1 0%nat) as (s2 & Hrun2 & Hd2 & Hw2 & Hi2);
      [exact Hd|reflexivity|exact Hml|].
    rewrite Nat.sub_0_r in Hrun2.
    assert (HC2 : CInv rcv s2 (cb ++ m)).
    { destruct (step s1 (EWrote (length m))) as [sx ox] eqn:Es.
      cbn [run] in Hrun2. rewrite Es in Hrun2. injection Hrun2 as -> Hox.
      rewrite app_nil_r in Hox. subst ox.
      eapply step_CInv with (rcv := rcv) in Es; [|apply CInv'_intro; exact Hi1|constructor].
      cbn in Es. rewrite app_nil_r in Es. destruct Es as [_ Es]. auto. }
    apply IH in HC2 as (es2 & s3 & o3 & k & Hf & Hr3 & Hk & Hcb); auto.
    2:{ rewrite Hi2. cbn. cbn in Hn. lia. }
    exists (EIdle :: EWrote (length m) :: es2), s3, (OClient m :: o3), k.
    split; [constructor; [exact I|constructor; [exact I|auto]]|]. split.
    + change (EIdle :: EWrote (length m) :: es2) with ([EIdle] ++ [EWrote (length m)] ++ es2).
      change (OClient m :: o3) with ([] ++ [OClient m] ++ o3).
      eapply run_app; [exact Hrun1|]. eapply run_app; eauto.
    + split; [|cbn; rewrite app_assoc; exact Hcb].
      rewrite Hi2 in Hk. unfold s1 in Hk. cbn in Hk. destruct Hk. constructor; auto.
Qed.

Lemma stream_complete : forall es s o n,
  initial <> Some [] ->
  Forall (carries base cs) (taken (stream_new base initial) es) ->
  run (stream_new base initial) es = (s, o) ->
  s_done s = false -> s_write s <> WClosed ->
  (forall j, (j < n)%nat -> arrived (base + 1 + N.of_nat j) (taken (stream_new base initial) es)) ->
  exists es2 s2 o2, Forall handing_over es2 /\ run s es2 = (s2, o2) /\
    prefix (initial_bytes initial ++ concat (firstn n cs)) (client_bytes (o ++ o2)).
Proof.
  intros es s o n Hini Hc H Hd Hw Harr.
  assert (HW : WInv s).
  { eapply run_WInv; [apply CInv'_intro, CInv_new|exact Hc| |exact H].
    unfold WInv, stream_new. cbn [s_write]. revert Hini. case initial; [intros [|b m0]|]; cbn; intros Hini; [exfalso; apply Hini; reflexivity|lia|exact I]. }
  eapply run_CInv in H; eauto; [|apply CInv'_intro, CInv_new].
  destruct H as [_ Hi]. specialize (Hi Hd). cbn [app] in Hi.
  set (rcv := data_seqs _) in Hi.
  assert (Hk : forall k, IInv base cs rcv (s_in s) k -> (n <= k)%nat).
  { intros k Hk. destruct (le_lt_dec n k); auto. exfalso.
    specialize (Harr k l). apply data_seqs_arrived in Harr. fold rcv in Harr.
    destruct Hk as [_ Hb _ Hfst _ _ Hr _].
    apply Hr in Harr as [Hle Hni]; [|lia].
    destruct (i_missing (s_in s)) as [|m ms]; [lia|].
    apply Hni. left. lia. }
  assert (Hfin : forall rcv' s1 cb, CInv rcv' s1 cb -> rcv' = rcv -> s_in s1 = s_in s ->
            s_done s1 = false -> s_write s1 = WGet ->
            exists es2 s2 o2, Forall handing_over es2 /\ run s1 es2 = (s2, o2) /\
              prefix (initial_bytes initial ++ concat (firstn n cs)) (cb ++ client_bytes o2)).
  { intros rcv' s1 cb Hi1 -> E1 Hd1 Hw1.
    destruct (hand_over_all _ _ _ _ Hi1 Hd1 Hw1 eq_refl) as (es2 & s2 & o2 & k & Hf & Hr & Hik & Hcb).
    exists es2, s2, o2. repeat apply conj; auto. rewrite Hcb.
    rewrite E1 in Hik. apply Hk in Hik.
    rewrite <- (firstn_skipn n (firstn k cs)), firstn_firstn, Nat.min_l by lia.
    rewrite concat_app, app_assoc. eexists; reflexivity. }
  destruct (s_write s) as [|off m|] eqn:Ew; [| |congruence].
  - destruct (Hfin _ _ _ Hi eq_refl eq_refl Hd Ew) as (es2 & s2 & o2 & Hf & Hr & Hp).
    exists es2, s2, o2. rewrite client_bytes_app. auto.
  - unfold WInv in HW. rewrite Ew in HW.
    destruct (write_out m s off Hd Ew HW) as (s1 & Hrun1 & Hd1 & Hw1 & Hi1).
    assert (HC1 : CInv rcv s1 (client_bytes o ++ skipn off m)).
    { destruct (step s (EWrote (length m - off))) as [sx ox] eqn:Es.
      cbn [run] in Hrun1. rewrite Es in Hrun1. injection Hrun1 as -> Hox.
      rewrite app_nil_r in Hox. subst ox.
      eapply step_CInv with (rcv := rcv) in Es; [|apply CInv'_intro; exact Hi|constructor].
      cbn in Es. rewrite app_nil_r in Es. destruct Es as [_ Es]. auto. }
    destruct (Hfin _ _ _ HC1 eq_refl Hi1 Hd1 Hw1) as (es2 & s2 & o2 & Hf & Hr & Hp).
    exists (EWrote (length m - off) :: es2), s2, (OClient (skipn off m) :: o2).
    split; [constructor; [exact I|auto]|]. split.
    + change (EWrote (length m - off) :: es2) with ([EWrote (length m - off)] ++ es2).
      change (OClient (skipn off m) :: o2) with ([OClient (skipn off m)] ++ o2).
      eapply run_app; eauto.
    + rewrite client_bytes_app. cbn [client_bytes flat_map]. rewrite app_assoc. exact Hp.
Qed.
End Client.
