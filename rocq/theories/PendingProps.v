(** C05: a stream waiting for its client. *)
From Coq Require Import List NArith Bool Arith Lia ZifyBool ZifyNat ZifyN.
From Verif Require Import NMap StreamModel StreamSpec StreamInProofs StreamProofs StreamProps PendingModel.
Import ListNotations.
Open Scope N_scope.

(** Packets come without gaps: the payload-carrying packets never run ahead of what was
    received so far by more than one (duplicates and repetitions are allowed). *)
Fixpoint gap_free (seen : N) (ps : list packet) : Prop :=
  match ps with
  | [] => True
  | p :: t =>
      match p_payload p with
      | [] => gap_free seen t
      | _ => p_seq p <= seen + 1 /\ gap_free (N.max seen (p_seq p)) t
      end
  end.

Lemma pending_inv cs : forall ps st seen got st' o,
  Forall (carries 0 cs) ps -> gap_free seen ps -> pn_seq st = seen ->
  (N.to_nat seen <= length cs)%nat ->
  concat (pn_packets st) = got ++ concat (firstn (N.to_nat seen) cs) ->
  pending_run st ps = (Some st', o) ->
  seen <= pn_seq st' /\ (N.to_nat (pn_seq st') <= length cs)%nat /\
  concat (pn_packets st') = got ++ concat (firstn (N.to_nat (pn_seq st')) cs) /\
  (forall n, seen < n <= pn_seq st' -> arrived n ps) /\
  (forall q n, In q o -> acks q n -> 0 < n -> n <= seen \/ arrived n ps).
Proof.
  induction ps as [|p ps IH]; intros st seen got st' o Hc Hg Hs Hl Hp Hr; cbn [pending_run] in Hr.
  - assert (st' = st /\ o = []) as [-> ->] by (split; congruence). subst seen.
    repeat apply conj; auto; try lia. intros q n [].
  - inversion Hc as [|? ? C1 C2]; subst. cbn [gap_free] in Hg.
    assert (Mono : forall n, arrived n ps -> arrived n (p :: ps)).
    { intros n (q & A & B). exists q. split; [now right|exact B]. }
    unfold pending_step in Hr.
    destruct (p_reset p || p_close p); [discriminate|].
    destruct (p_payload p) as [|b pl] eqn:Ep; cbn [orb] in Hr.
    + destruct (IH st _ got st' o C2 Hg eq_refl Hl Hp Hr) as (A & B & C & D & E).
      repeat apply conj; auto. intros q n H1 H2 H3. destruct (E q n H1 H2 H3); auto.
    + destruct Hg as [G1 G2].
      destruct (N.leb_spec (p_seq p) (pn_seq st)) as [Q|Q].
      * rewrite N.max_l in G2 by lia.
        destruct (IH st _ got st' o C2 G2 eq_refl Hl Hp Hr) as (A & B & C & D & E).
        repeat apply conj; auto. intros q n H1 H2 H3. destruct (E q n H1 H2 H3); auto.
      * destruct (length (pn_packets st) =? PENDING_WINDOW)%nat; [discriminate|].
        assert (Q1 : p_seq p = pn_seq st + 1) by lia.
        rewrite N.max_r in G2 by lia.
        destruct (pending_run _ ps) as [r o1] eqn:R.
        assert (r = Some st' /\ o = pending_ack (p_seq p) :: o1) as [-> ->] by (split; congruence).
        assert (Nth : nth_error cs (N.to_nat (pn_seq st)) = Some (b :: pl)).
        { destruct C1 as [C1|[C1|C1]]; [congruence|lia|].
          rewrite Ep in C1. replace (pn_seq st) with (p_seq p - 0 - 1) by lia. exact C1. }
        assert (Lt : (N.to_nat (pn_seq st) < length cs)%nat)
          by (apply nth_error_Some; congruence).
        assert (Me : arrived (p_seq p) (p :: ps)).
        { exists p. split; [now left|]. rewrite Ep. split; [reflexivity|discriminate]. }
        destruct (IH (mkPending (pn_packets st ++ [b :: pl]) (p_seq p)) (p_seq p) got st' o1 C2 G2
                    eq_refl) as (A & B & C & D & E); auto.
        { lia. }
        { cbn [pn_packets]. rewrite concat_app, Hp. cbn [concat]. rewrite app_nil_r, <- app_assoc.
          f_equal. replace (N.to_nat (p_seq p)) with (S (N.to_nat (pn_seq st))) by lia.
          assert (X : firstn (S (N.to_nat (pn_seq st))) cs =
                      firstn (N.to_nat (pn_seq st)) cs ++ [b :: pl]).
          { clear - Nth. revert cs Nth. induction (N.to_nat (pn_seq st)); intros [|c cs] H;
              cbn [nth_error] in H; try discriminate.
            - injection H as ->. reflexivity.
            - cbn [firstn app]. f_equal. now apply IHn. }
          rewrite X, concat_app. cbn [concat]. now rewrite app_nil_r. }
        repeat apply conj; auto; try lia.
        -- intros n Hn. destruct (N.eq_dec n (p_seq p)) as [-> |]; [exact Me|].
           apply Mono, D. lia.
        -- intros q n [<-|Hq] Ha Hn.
           ++ destruct Ha as (_ & Ha & _). cbn [pending_ack p_ack] in Ha.
              destruct (N.eq_dec n (p_seq p)) as [-> |]; [now right|left; lia].
           ++ destruct (E q n Hq Ha Hn) as [H|H]; [|right; now apply Mono].
              destruct (N.eq_dec n (p_seq p)) as [-> |]; [now right|left; lia].
Qed.

Lemma pending_seen : forall ps st st' o p, pending_run st ps = (Some st', o) ->
  (In p ps -> p_payload p <> [] -> p_seq p <= pn_seq st') /\ pn_seq st <= pn_seq st'.
Proof.
  induction ps as [|q ps IH]; intros st st' o p H; cbn [pending_run] in H.
  - assert (st' = st) as -> by congruence. split; [intros []|lia].
  - unfold pending_step in H. destruct (p_reset q || p_close q); [discriminate|].
    destruct (p_payload q) as [|b pl] eqn:Ep; cbn [orb] in H.
    + destruct (IH _ _ _ p H) as [A B]. split; [|exact B]. intros [<-|Hin] Hp; auto. now elim Hp.
    + destruct (N.leb_spec (p_seq q) (pn_seq st)) as [Q|Q].
      * destruct (IH _ _ _ p H) as [A B]. split; [|exact B]. intros [<-|Hin] Hp; auto. lia.
      * destruct (_ =? _)%nat; [discriminate|].
        destruct (pending_run _ ps) as [r o1] eqn:R. assert (r = Some st') as -> by congruence.
        destruct (IH _ _ _ p R) as [A B]. cbn [pn_seq] in B. split; [|lia].
        intros [<-|Hin] Hp; auto.
Qed.

(** The conversion keeps what was received. *)
Lemma activate_initial initial st :
  exists i, activate initial st = stream_new (pn_seq st) i /\
    initial_bytes i = initial_bytes initial ++ concat (pn_packets st) /\
    (initial <> Some [] -> i <> Some []).
Proof.
  unfold activate. destruct initial as [m|], (concat (pn_packets st)) as [|b t];
    eexists; (split; [reflexivity|]); cbn [initial_bytes]; rewrite ?app_nil_r; split; auto;
    intros H; try discriminate.
  intros E. destruct m; discriminate E.
Qed.

Lemma carries_shift cs k p : (N.to_nat k <= length cs)%nat ->
  carries 0 cs p -> carries k (skipn (N.to_nat k) cs) p.
Proof.
  intros Hk [H|[H|H]].
  - now left.
  - right. left. lia.
  - destruct (N.le_gt_cases (p_seq p) k) as [L|L]; [right; left; lia|].
    right. right. rewrite <- H. rewrite <- (firstn_skipn (N.to_nat k) cs) at 2.
    rewrite nth_error_app2 by (rewrite firstn_length; lia).
    f_equal. rewrite firstn_length. lia.
Qed.

(** When the packets that arrive before the client accepts the stream come without gaps, the
    client is given exactly what the remote sent: SYN payload, then the remote's payloads in
    order, with nothing lost or repeated by the conversion to an active stream.
    Missing for the full property: packets with gaps, and CLOSE before the stream is accepted
    (both refuted below). *)
Theorem C05_accepted_stream_prefix_partial :
  forall (cs : list bytes) (syn : bytes) (initial : option bytes) (before : list packet) st o0
         (es : list event) (s : stream) (o : list out),
    Forall (carries 0 cs) before -> gap_free 0 before ->
    pending_run (pending_new syn) before = (Some st, o0) ->
    Forall (carries 0 cs) (taken (activate initial st) es) ->
    run (activate initial st) es = (s, o) ->
    prefix (client_bytes o) (initial_bytes initial ++ syn ++ concat cs).
Proof.
  intros cs syn initial before st o0 es s o Hc Hg Hr Ht Hs.
  destruct (pending_inv cs before (pending_new syn) 0 syn st o0 Hc Hg eq_refl) as (A & B & C & _ & _);
    auto; [cbn; lia|destruct syn; cbn; now rewrite ?app_nil_r|].
  destruct (activate_initial initial st) as (i & Ei & Bi & _). rewrite Ei in *.
  assert (Ht' : Forall (carries (pn_seq st) (skipn (N.to_nat (pn_seq st)) cs))
                  (taken (stream_new (pn_seq st) i) es)).
  { eapply Forall_impl; [|exact Ht]. intros p. now apply carries_shift. }
  pose proof (C01_delivered_is_prefix _ _ _ _ _ _ Ht' Hs) as P.
  rewrite Bi, C, <- !app_assoc, <- concat_app, firstn_skipn in P. exact P.
Qed.
Print Assumptions C05_accepted_stream_prefix_partial.

(** ... and everything that arrived, before or after the conversion, can be handed over. *)
Theorem C05_accepted_stream_complete_partial :
  forall (cs : list bytes) (syn : bytes) (initial : option bytes) (before : list packet) st o0
         (es : list event) (s : stream) (o : list out) (n : nat),
    Forall (fun c => c <> []) cs -> initial <> Some [] ->
    Forall (carries 0 cs) before -> gap_free 0 before ->
    pending_run (pending_new syn) before = (Some st, o0) ->
    Forall (carries 0 cs) (taken (activate initial st) es) ->
    run (activate initial st) es = (s, o) ->
    s_done s = false -> s_write s <> WClosed ->
    (forall j, (j < n)%nat -> arrived (1 + N.of_nat j) before \/
                              arrived (1 + N.of_nat j) (taken (activate initial st) es)) ->
    exists es2 s2 o2,
      Forall handing_over es2 /\ run s es2 = (s2, o2) /\
      prefix (initial_bytes initial ++ syn ++ concat (firstn n cs)) (client_bytes (o ++ o2)).
Proof.
  intros cs syn initial before st o0 es s o n Hne Hi Hc Hg Hr Ht Hs Hd Hw Ha.
  destruct (pending_inv cs before (pending_new syn) 0 syn st o0 Hc Hg eq_refl) as (A & B & C & D & _);
    auto; [cbn; lia|destruct syn; cbn; now rewrite ?app_nil_r|].
  destruct (activate_initial initial st) as (i & Ei & Bi & Ni). rewrite Ei in *.
  set (k := N.to_nat (pn_seq st)) in *.
  assert (Ht' : Forall (carries (pn_seq st) (skipn k cs)) (taken (stream_new (pn_seq st) i) es)).
  { eapply Forall_impl; [|exact Ht]. intros p. now apply carries_shift. }
  assert (Hb : forall p, In p before -> p_payload p <> [] -> p_seq p <= pn_seq st).
  { intros p Hp Hpl. eapply (proj1 (pending_seen before (pending_new syn) st o0 p Hr)); auto. }
  destruct (C01_all_arrived_is_delivered (pn_seq st) (skipn k cs) i) with
    (es := es) (s := s) (o := o) (n := (n - k)%nat) as (es2 & s2 & o2 & E1 & E2 & E3); auto.
  - apply Forall_forall. intros c Hin. rewrite Forall_forall in Hne. apply Hne.
    rewrite <- (firstn_skipn k cs). apply in_or_app. now right.
  - intros j Hj. destruct (Ha (k + j)%nat ltac:(lia)) as [X|X].
    + destruct X as (p & P1 & P2 & P3). specialize (Hb p P1 P3). lia.
    + replace (pn_seq st + 1 + N.of_nat j) with (1 + N.of_nat (k + j)) by lia. exact X.
  - exists es2, s2, o2. repeat apply conj; auto.
    rewrite Bi, C, <- !app_assoc in E3.
    destruct (Nat.le_gt_cases k n) as [H|H].
    + replace (firstn n cs) with (firstn k cs ++ firstn (n - k) (skipn k cs)).
      * rewrite concat_app. exact E3.
      * rewrite <- (firstn_skipn k cs) at 3. rewrite firstn_app.
        rewrite firstn_length, Nat.min_l by lia. f_equal.
        rewrite firstn_firstn. f_equal. lia.
    + replace (n - k)%nat with O in E3 by lia. cbn [firstn concat] in E3.
      rewrite app_nil_r in E3. destruct E3 as [tl E3].
      exists (concat (skipn n (firstn k cs)) ++ tl). rewrite E3, <- !app_assoc. do 2 f_equal.
      rewrite app_assoc, <- concat_app. f_equal. f_equal.
      rewrite <- (firstn_skipn n (firstn k cs)) at 1. f_equal. rewrite firstn_firstn.
      f_equal. lia.
Qed.
Print Assumptions C05_accepted_stream_complete_partial.

(** While waiting, only received packets are acknowledged (again without gaps). *)
Theorem C05_waiting_ack_truthful_partial :
  forall (cs : list bytes) (syn : bytes) (before : list packet) st o q n,
    Forall (carries 0 cs) before -> gap_free 0 before ->
    pending_run (pending_new syn) before = (Some st, o) ->
    In q o -> acks q n -> 0 < n -> arrived n before.
Proof.
  intros cs syn before st o q n Hc Hg Hr Hq Ha Hn.
  destruct (pending_inv cs before (pending_new syn) 0 syn st o Hc Hg eq_refl)
    as (_ & _ & _ & _ & E); auto; [cbn; lia|destruct syn; cbn; now rewrite ?app_nil_r|].
  destruct (E q n Hq Ha Hn); [lia|easy].
Qed.
Print Assumptions C05_waiting_ack_truthful_partial.

(** No more than six payloads are kept while waiting. *)
Theorem C05_waiting_bounded :
  forall syn before st o, pending_run (pending_new syn) before = (Some st, o) ->
    (length (pn_packets st) <= 6)%nat.
Proof.
  intros syn before. assert (H : (length (pn_packets (pending_new syn)) <= 6)%nat)
    by (destruct syn; cbn; lia).
  revert H. generalize (pending_new syn) as s0.
  induction before as [|p ps IH]; intros s0 H st o E; cbn [pending_run] in E.
  - assert (st = s0) as -> by congruence. exact H.
  - unfold pending_step in E.
    destruct (_ || _); [discriminate|]. destruct (_ || _).
    + eapply IH; eauto.
    + destruct (Nat.eqb_spec (length (pn_packets s0)) PENDING_WINDOW) as [|Ne]; [discriminate|].
      destruct (pending_run _ ps) as [r o1] eqn:R.
      assert (r = Some st) as -> by congruence.
      eapply IH; [|exact R]. cbn [pn_packets]. rewrite app_length. cbn [length].
      change PENDING_WINDOW with 6%nat in Ne. lia.
Qed.
Print Assumptions C05_waiting_bounded.

(** Finding: when the network reorders or loses a packet before the stream is accepted, the
    missing packet is acknowledged, never delivered even if it arrives, and the data behind it
    is delivered in its place. *)
Theorem C05_refuted_gap :
  exists cs before st o es s o2 q,
    Forall (carries 0 cs) before /\ pending_run (pending_new []) before = (Some st, o) /\
    Forall (carries 0 cs) (taken (activate None st) es) /\
    In q o /\ acks q 1 /\ ~ arrived 1 before /\
    run (activate None st) es = (s, o2) /\
    ~ prefix (client_bytes o2) (concat cs).
Proof.
  exists [[1]; [2]], [data 2 [2]]. do 2 eexists. exists [EWrote 1; EPacket (data 1 [1]) true; EIdle].
  do 3 eexists.
  repeat apply conj.
  - apply Forall_cons; [right; right; reflexivity|apply Forall_nil].
  - vm_compute. reflexivity.
  - match goal with |- Forall _ ?l => let l' := eval vm_compute in l in change l with l' end.
    apply Forall_cons; [right; right; reflexivity|apply Forall_nil].
  - left. reflexivity.
  - reflexivity.
  - vm_compute. discriminate.
  - intros [].
  - intros (p & [<-|[]] & H & _). discriminate H.
  - vm_compute. reflexivity.
  - intros [c H]. discriminate H.
Qed.
Print Assumptions C05_refuted_gap.

(** Finding: a remote that sends data and closes before the client accepts the stream has its
    data acknowledged and thrown away. *)
Theorem C05_refuted_close_before_accept :
  exists p c, acks (pending_ack (p_seq p)) (p_seq p) /\
    snd (pending_step (pending_new []) p) = PSend (pending_ack (p_seq p)) /\
    p_payload p = [7] /\ p_close c = true /\
    pending_run (pending_new []) [p; c] = (None, [pending_ack (p_seq p)]).
Proof.
  exists (data 1 [7]), (mkPacket 2 0 [] false true false false false []).
  repeat apply conj; try reflexivity. intros [].
Qed.
Print Assumptions C05_refuted_close_before_accept.

Example C05_ex :
  let before := [data 1 [1; 2]; data 1 [1; 2]; data 2 [3]] in
  Forall (carries 0 [[1; 2]; [3]; [4]]) before /\ gap_free 0 before /\
  exists st o, pending_run (pending_new [9]) before = (Some st, o) /\ concat (pn_packets st) = [9; 1; 2; 3].
Proof.
  split; [|split].
  - repeat (apply Forall_cons || apply Forall_nil); right; right; reflexivity.
  - cbn. lia.
  - do 2 eexists. split; vm_compute; reflexivity.
Qed.

(** *** What the waiting stream says: it acknowledges payloads it kept and, when a seventh comes,
    refuses the stream; nothing else, and nothing is said twice. *)
Theorem C05_waiting_answers :
  forall st p, match pending_step st p with
  | (st', PSend q) => q = mkPacket 0 (p_seq p) [] false false false false false [] /\
      pn_packets st' = pn_packets st ++ [p_payload p] /\ p_payload p <> [] /\ pn_seq st < p_seq p /\ pn_seq st' = p_seq p
  | (st', PSendAndDestroy q) => p_reset q = true /\ p_syn q = false /\ p_close q = false /\ p_no_ack q = false /\
      p_choke q = false /\ p_seq q = 0 /\ p_ack q = 0 /\ p_nacks q = [] /\ p_payload q = [] /\
      length (pn_packets st) = 6%nat /\ p_payload p <> [] /\ pn_seq st < p_seq p
  | (st', PDestroy) => p_reset p = true \/ p_close p = true
  | (st', PNothing) => st' = st /\ (p_payload p = [] \/ p_seq p <= pn_seq st)
  end.
Proof.
  intros st p. unfold pending_step. destruct (p_reset p) eqn:er; cbn [orb]; [auto|].
  destruct (p_close p) eqn:ec; [auto|]. destruct (p_payload p) as [|x l] eqn:ep; cbn [orb]; [auto|].
  destruct (N.leb_spec (p_seq p) (pn_seq st)) as [h|h]; [auto|].
  destruct (Nat.eqb_spec (length (pn_packets st)) PENDING_WINDOW) as [k|k].
  - repeat split; auto; discriminate.
  - repeat split; auto; discriminate.
Qed.
Print Assumptions C05_waiting_answers.
Example C05_waiting_answers_ex :
  pending_step (mkPending [[1]; [2]; [3]; [4]; [5]; [6]] 5) (data 6 [7]) =
    (mkPending [[1]; [2]; [3]; [4]; [5]; [6]] 5, PSendAndDestroy pending_reset) /\
  snd (pending_step (pending_new [1]) (data 1 [7])) = PSend (pending_ack 1).
Proof. split; reflexivity. Qed.
