(** Proofs about the SSU2 handshake: timers, and datagrams anybody can make up. *)
From Coq Require Import String List NArith Bool Arith Lia ZifyBool ZifyNat ZifyN.
From Verif Require Import ListUtil Bytes NMap PrimModel I2npModel EncModel NoiseModel Ntcp2Model Ssu2Model Ssu2Proofs2
  RouteProofs HandshakeModel HandshakeSpec HandshakeProofs Ssu2HsModel Ssu2HsSpec Ssu2HsProofs Ssu2HsProofs2 Ssu2HsProofs3.
Import ListNotations.
Open Scope N_scope.

Definition total (ds : list N) : N := fold_right N.add 0 ds.
(** the timer, the peer and the report of a pending session *)
Definition slot_rtx (x : slot) : option rtx :=
  match x with SlotIn s => Some (in_rtx s) | SlotOut s => Some (ou_rtx s) | _ => None end.
Definition slot_fails (x : slot) : list uevent := match x with SlotOut s => [Failure (ou_router s)] | _ => [] end.
Definition slot_to (x : slot) : addr := match x with SlotIn s => in_addr s | SlotOut s => ou_addr s | _ => ([], 0) end.

Section Proofs.
Variable c : hops.
Variable ks : bytes -> bytes -> nat -> bytes.

Lemma timer_step u id x p ds t now : nget id (us_sessions u) = Some x -> slot_rtx x = Some (mkRtx p ds (Some t)) ->
  (now < t /\ on_timer u id now = Some (u, [], [])) \/
  (t <= now /\ match ds with
   | [] => on_timer u id now = Some (with_session u id SlotClosed, [], slot_fails x)
   | d :: rest => exists y, on_timer u id now = Some (with_session u id y, [(slot_to x, p)], []) /\
       slot_rtx y = Some (mkRtx p rest (Some (now + d))) /\ slot_fails y = slot_fails x /\ slot_to y = slot_to x /\
       match x, y with SlotIn a, SlotIn b => in_st b = in_st a | SlotOut a, SlotOut b => ou_st b = ou_st a | _, _ => False end
   end).
Proof.
  intros Hg Hr. unfold on_timer. rewrite Hg.
  destruct x as [s|s|?|]; cbn [slot_rtx] in Hr; try discriminate; injection Hr as Hr; rewrite Hr;
    unfold rtx_poll; cbn [rt_at rt_left rt_pkt]; destruct (N.ltb_spec now t); [left; auto| |left; auto|];
    (right; split; [assumption|]); destruct ds as [|d rest]; [reflexivity| |reflexivity|];
    eexists; (split; [reflexivity|]); repeat split.
Qed.
Lemma closed_run u id times : nget id (us_sessions u) = Some SlotClosed -> urun c ks u (map (UTimer id) times) u [] [].
Proof.
  intros H. induction times as [|t ts IH]; [constructor|]. cbn [map].
  change (urun c ks u (UTimer id t :: map (UTimer id) ts) u ([] ++ []) ([] ++ [])).
  apply (urun_cons c ks u (UTimer id t) u [] []); [cbn [ustep_of]; unfold on_timer; now rewrite H|exact IH].
Qed.

(** The session gives up in time... *)
Lemma timers_give_up gap id p : forall times u x ds t s, nget id (us_sessions u) = Some x ->
  slot_rtx x = Some (mkRtx p ds (Some t)) -> s <= t -> every gap s times ->
  Forall (fun d => 0 < d) ds -> t + total ds + N.of_nat (length ds) * gap <= last times s -> times <> [] ->
  exists u', urun c ks u (map (UTimer id) times) u' (repeat (slot_to x, p) (length ds)) (slot_fails x) /\
    nget id (us_sessions u') = Some SlotClosed.
Proof.
  induction times as [|now ts IH]; intros u x ds t s Hg Hr Hs He Hd Hl Hne; [contradiction|].
  cbn [every] in He. destruct He as [Hnow He]. cbn [map].
  assert (HL : ts = [] /\ last (now :: ts) s = now \/ ts <> [] /\ last (now :: ts) s = last ts now).
  { destruct ts as [|y ts']; [left; auto|right]. split; [discriminate|]. cbn [last].
    clear. revert y. induction ts' as [|z l IH]; intros y; [reflexivity|]. cbn [last] in *. apply IH. }
  destruct (timer_step u id x p ds t now Hg Hr) as [[Hlt E]|[Hle E]].
  - destruct HL as [[-> HL]|[Hts HL]]; rewrite HL in Hl; [nia|].
    destruct (IH u x ds t now Hg Hr ltac:(lia) He Hd Hl Hts) as (u' & R & C). exists u'. split; [|exact C].
    exact (urun_cons c ks u (UTimer id now) u [] [] _ _ _ _ E R).
  - destruct ds as [|d rest].
    + exists (with_session u id SlotClosed). split; [|apply nget_with]. cbn [length repeat].
      rewrite <- (app_nil_r (slot_fails x)).
      exact (urun_cons c ks u (UTimer id now) _ [] _ _ _ _ _ E (closed_run _ id ts (nget_with u id SlotClosed))).
    + destruct E as (y & E & Hy1 & Hy2 & Hy3 & _). cbn [length total fold_right] in Hl. fold (total rest) in Hl.
      pose proof (Forall_inv Hd) as Hd1. cbn beta in Hd1. pose proof (Forall_inv_tail Hd) as Hd2.
      destruct HL as [[-> HL]|[Hts HL]]; rewrite HL in Hl; [nia|].
      destruct (IH (with_session u id y) y rest (now + d) now (nget_with u id y) Hy1 ltac:(lia) He Hd2 ltac:(nia) Hts) as (u' & R & C).
      exists u'. split; [|exact C]. rewrite Hy2, Hy3 in R. cbn [length repeat].
      exact (urun_cons c ks u (UTimer id now) _ [_] [] _ _ _ _ E R).
Qed.
(** ... and not before. *)
Lemma timers_wait id p : forall times u x ds t s, nget id (us_sessions u) = Some x ->
  slot_rtx x = Some (mkRtx p ds (Some t)) -> times_from s times ->
  Forall (fun now => now < t + total ds) times ->
  exists u' sent y, urun c ks u (map (UTimer id) times) u' sent [] /\ Forall (eq (slot_to x, p)) sent /\
    nget id (us_sessions u') = Some y /\
    match x, y with SlotIn a, SlotIn b => in_st b = in_st a | SlotOut a, SlotOut b => ou_st b = ou_st a | _, _ => False end.
Proof.
  induction times as [|now ts IH]; intros u x ds t s Hg Hr Ht F.
  - exists u, [], x. split; [constructor|]. split; [constructor|]. split; [exact Hg|]. destruct x; try reflexivity; discriminate.
  - destruct Ht as [H1 H2]. pose proof (Forall_inv F) as F1. pose proof (Forall_inv_tail F) as F2. cbn beta in F1. cbn [map].
    destruct (timer_step u id x p ds t now Hg Hr) as [[Hlt E]|[Hle E]].
    + destruct (IH u x ds t now Hg Hr H2 F2) as (u' & sent & y & R & S & G). exists u', sent, y.
      split; [exact (urun_cons c ks u (UTimer id now) u [] [] _ _ _ _ E R)|]. split; [exact S|exact G].
    + destruct ds as [|d rest]; [cbn [total fold_right] in F1; lia|].
      destruct E as (z & E & Hy1 & Hy2 & Hy3 & Hy4). cbn [total fold_right] in *. fold (total rest) in *.
      destruct (IH (with_session u id z) z rest (now + d) now (nget_with u id z) Hy1 H2) as (u' & sent & y & R & S & G1 & G2).
      { eapply Forall_impl; [|exact F2]. cbn beta. intros a Ha. lia. }
      exists u', ((slot_to x, p) :: sent), y. split; [exact (urun_cons c ks u (UTimer id now) _ [_] [] _ _ _ _ E R)|].
      split; [constructor; [reflexivity|]; rewrite <- Hy3; exact S|]. split; [exact G1|].
      destruct x, z, y; try contradiction; congruence.
Qed.

(** A session that waits for a SessionRequest has no timer. *)
Lemma idle_run u id s times : nget id (us_sessions u) = Some (SlotIn s) -> in_rtx s = rtx_inactive ->
  urun c ks u (map (UTimer id) times) u [] [].
Proof.
  intros H Hr. induction times as [|t ts IH]; [constructor|]. cbn [map].
  change (urun c ks u (UTimer id t :: map (UTimer id) ts) u ([] ++ []) ([] ++ [])).
  apply (urun_cons c ks u (UTimer id t) u [] []); [|exact IH]. cbn [ustep_of]. unfold on_timer. rewrite H, Hr. reflexivity.
Qed.

Hypothesis K : stream_ok ks.
Lemma lxor_byte a b : a < 256 -> b < 256 -> N.lxor a b < 256.
Proof.
  intros Ha Hb. change 256 with (2 ^ 8) in *. destruct (N.eq_dec (N.lxor a b) 0) as [->|Hz]; [reflexivity|].
  apply N.log2_lt_pow2; [lia|]. eapply N.le_lt_trans; [apply N.log2_lxor|].
  apply N.max_lub_lt; [destruct (N.eq_dec a 0) as [->|]|destruct (N.eq_dec b 0) as [->|]]; try reflexivity; apply N.log2_lt_pow2; lia.
Qed.
Lemma xor8_bytes m : Forall (fun b => b < 256) m -> forall b, Forall (fun b => b < 256) b -> Forall (fun b => b < 256) (xor8 m b).
Proof.
  induction 1 as [|x m Hx Hm IH]; intros b Hb; [exact Hb|]. destruct Hb as [|y b Hy Hb]; [constructor|].
  cbn [xor8]. constructor; [now apply lxor_byte|now apply IH].
Qed.
Lemma le_bytes_bytes n v : Forall (fun b => b < 256) (le_bytes n v).
Proof. apply Forall_rev. apply be_bytes_ok. Qed.

(** 40 bytes that make the socket slice past the end. *)
Definition bad_datagram (intro : bytes) (id : N) : bytes :=
  xor8 (ks intro (repeat 0 12) 8) (le_bytes 8 id) ++ xor8 (ks intro (repeat 0 12) 8) [0; 0; 0; 0; 0; 2; 2; 0] ++ repeat 0 24.
Lemma bad_datagram_panics u r now a id : id < 2 ^ 64 -> nget id (us_sessions u) = None ->
  on_datagram c ks u r now a (bad_datagram (us_intro u) id) = None.
Proof.
  intros Hid Hg. unfold on_datagram, bad_datagram.
  set (s := repeat 0 24). change (repeat 0 12) with (iv1 s) at 1. change (repeat 0 12) with (iv2 s).
  set (h2 := [0; 0; 0; 0; 0; 2; 2; 0]).
  assert (Ls : (24 <= length s)%nat) by (unfold s; rewrite repeat_length; lia).
  rewrite firstn_all2 by (unfold s; rewrite !app_length, !xor8_length, le_bytes_length, repeat_length; cbn [h2 length]; lia).
  rewrite app_assoc, reader_new_wire by exact Ls. rewrite <- app_assoc.
  rewrite (reader_dst_wire ks K) by apply le_bytes_length. rewrite le_ok by exact Hid. rewrite Hg.
  unfold reader_parse, rd. cbn [hr_pkt hr_iv2].
  rewrite mask_at_app by (rewrite ?le_bytes_length, ?xor8_length, ?ks_length; auto). rewrite xor8_twice.
  cbv zeta. unfold unmask_tail.
  assert (L : length (le_bytes 8 id ++ h2 ++ s) = 40%nat)
    by (unfold s; rewrite !app_length, le_bytes_length, repeat_length; reflexivity).
  rewrite L.
  assert (E12 : byte_at 12 (le_bytes 8 id ++ h2 ++ s) = 0) by reflexivity.
  assert (E13 : byte_at 13 (le_bytes 8 id ++ h2 ++ s) = 2) by reflexivity.
  rewrite E12, E13. reflexivity.
Qed.
Lemma bad_datagram_bytes intro id : length (bad_datagram intro id) = 40%nat /\ Forall (fun b => b < 256) (bad_datagram intro id).
Proof.
  split; [unfold bad_datagram; rewrite !app_length, !xor8_length, le_bytes_length; reflexivity|].
  unfold bad_datagram. pose proof (proj2 (K intro (repeat 0 12) 8%nat)) as Hk.
  apply Forall_app. split; [apply xor8_bytes; [exact Hk|apply le_bytes_bytes]|].
  apply Forall_app. split; [apply xor8_bytes; [exact Hk|]|]; apply Forall_forall; intros x H;
    [cbn [In] in H; intuition (subst; reflexivity)|apply repeat_spec in H; subst; reflexivity].
Qed.

(** A token request of some other network. *)
Hypothesis P : primitives_ok c.
Lemma other_network B src dst net r1 r2 now aA : src < 2 ^ 64 -> dst < 2 ^ 64 -> rnd_ok r1 -> rnd_ok r2 ->
  nget dst (us_sessions B) = None ->
  let header := le_bytes 8 dst ++ be_bytes 4 (r_num r1) ++ [10; 2; net; 0] ++ le_bytes 8 src ++ be_bytes 8 0 in
  let s := seal_with c (us_intro B) (r_num r1) header (date_block (r_secs r1) ++ padding_block (r_pad r1)) in
  exists h, mask_first ks (us_intro B) (us_intro B) header s = Ok h /\
  on_datagram c ks B r2 now aA (mask_rest ks (us_intro B) h ++ s) =
  Some (with_session B dst (SlotIn (in1 c (us_intro B) (us_static B) src dst aA r2)), [(aA, W2 c ks (us_intro B) src dst aA r2)], []).
Proof.
  intros Hs Hd (Hn & Hp & _) O2 Hg header s.
  set (intro := us_intro B) in *.
  assert (E : header = le_bytes 8 dst ++ h2_of (r_num r1) 10 [2; net; 0] ++ le_bytes 8 src ++ be_bytes 8 0).
  { unfold header, h2_of. cbn [app]. now rewrite <- !app_assoc. }
  assert (Ls : length s = (26 + length (r_pad r1))%nat).
  { unfold s. rewrite (sealed_length c P), !app_length, date_length, padding_length. lia. }
  assert (Ls' : (24 <= length s)%nat) by lia.
  pose proof (build_wire ks K intro intro (le_bytes 8 dst) (h2_of (r_num r1) 10 [2; net; 0]) (le_bytes 8 src ++ be_bytes 8 0) s
                (le_bytes_length _ _) (h2_length _ _ _ _ _) Ls') as Eb. rewrite <- E in Eb.
  eexists. split; [exact Eb|].
  rewrite (rest_wire ks K) by (rewrite xor8_length; first [apply le_bytes_length | apply h2_length]).
  assert (L3 : length (le_bytes 8 src ++ be_bytes 8 0) = 16%nat)
    by (rewrite app_length, le_bytes_length, be_bytes_length; reflexivity).
  unfold on_datagram. fold intro.
  rewrite firstn_all2 by (rewrite !app_length, !xor8_length, le_bytes_length, h2_length, L3, Ls; lia).
  rewrite reader_new_wire by exact Ls'. rewrite <- !app_assoc.
  rewrite (reader_dst_wire ks K) by apply le_bytes_length. rewrite le_ok by exact Hd. rewrite Hg.
  rewrite (reader_parse_long ks K); [|apply le_bytes_length|exact Hn|right; split; [right; left; reflexivity|exact L3]].
  unfold parsed. change (10 =? 0) with false. change (10 =? 1) with false. change (10 =? 2) with false.
  change (10 =? 6) with false. change (10 =? 9) with false. change (10 =? 10) with true. cbv iota.
  cbn [rd hr_pkt].
  assert (Es : le_val (part 16 8 (le_bytes 8 dst ++ h2_of (r_num r1) 10 [2; net; 0] ++ (le_bytes 8 src ++ be_bytes 8 0) ++ s)) = src).
  { rewrite <- (app_assoc (le_bytes 8 src)). rewrite (app_assoc (le_bytes 8 dst)). rewrite part_app.
    - apply le_ok; exact Hs.
    - rewrite app_length, le_bytes_length, h2_length. reflexivity.
    - apply le_bytes_length. }
  rewrite Es. unfold in_new.
  replace (le_bytes 8 dst ++ h2_of (r_num r1) 10 [2; net; 0] ++ (le_bytes 8 src ++ be_bytes 8 0) ++ s) with (header ++ s)
    by (rewrite E; now rewrite <- !app_assoc).
  assert (L : length header = 32%nat) by (rewrite E, !app_length, h2_length, !le_bytes_length, be_bytes_length; reflexivity).
  rewrite slice_end by exact L. cbn [or_panic rbind].
  pose proof (@firstn_exact _ header s) as Fx. rewrite L in Fx. rewrite Fx. unfold s at 1. rewrite (opened c P). cbn [or_err rbind].
  destruct (s_parse_request c (r_secs r1) (r_pad r1) ltac:(lia)) as [bs ->].
  destruct (retry_ok c ks P K intro [] src dst aA r2) as [-> | F]; [reflexivity|]. destruct O2 as (_ & Hp2 & _). lia.
Qed.

(** The same token request again: the session that was opened for it is poisoned. *)
Lemma repeated_request B src dst aA r1 r2 r now a : src < 2 ^ 64 -> dst < 2 ^ 64 -> rnd_ok r1 ->
  let s := in1 c (us_intro B) (us_static B) src dst aA r2 in
  let B1 := with_session B dst (SlotIn s) in
  on_datagram c ks B1 r now a (W1 c ks (us_intro B) src dst r1) =
  Some (with_session B1 dst (SlotIn (in_poisoned s)), [], []).
Proof.
  intros Hs Hd (Hn & Hp & _) s B1.
  pose proof (S1_length c P (us_intro B) src dst r1) as LS.
  assert (L3 : length (le_bytes 8 src ++ be_bytes 8 0) = 16%nat)
    by (rewrite app_length, le_bytes_length, be_bytes_length; reflexivity).
  unfold W1, wire. set (s1 := S1 c (us_intro B) src dst r1) in *.
  set (m2 := xor8 (ks (us_intro B) (iv2 s1) 8) (h2_of (r_num r1) 10 [2; 2; 0])).
  set (m3 := xor8 (ks (us_intro B) zero_iv (length (le_bytes 8 src ++ be_bytes 8 0))) (le_bytes 8 src ++ be_bytes 8 0)).
  rewrite (app_assoc m2 m3 s1).
  change (ks (us_intro B) (iv1 s1) 8) with (ks (us_intro B1) (iv1 s1) 8).
  rewrite (own_dispatch c ks K B1 r now a (le_bytes 8 dst) (m2 ++ m3) s1 (SlotIn s)).
  - rewrite le_ok by exact Hd. cbn [to_session]. unfold in_packet. cbn [s in1 in_st]. unfold on_session_request. cbn [in1 in_intro].
    rewrite <- (app_assoc m2 m3 s1). unfold m2, m3.
    rewrite (session_long ks K (us_intro B) (us_intro B) (le_bytes 8 dst) (r_num r1) 10 2 0 _ s1 (HTokenRequest 2 (r_num r1)
       (le_val (part 16 8 (le_bytes 8 dst ++ h2_of (r_num r1) 10 [2; 2; 0] ++ (le_bytes 8 src ++ be_bytes 8 0) ++ s1))))).
    + cbn [rbind]. reflexivity.
    + apply le_bytes_length.
    + exact Hn.
    + lia.
    + right. split; [right; left; reflexivity|exact L3].
    + reflexivity.
  - apply le_bytes_length.
  - lia.
  - unfold m2, m3. rewrite app_length, !xor8_length, h2_length, L3, LS. lia.
  - rewrite le_ok by exact Hd. apply nget_with.
Qed.

(** A token request per connection id: none of the sessions goes away. *)
Definition flood (intro : bytes) (a : addr) (now : N) (r : rnd) (n : nat) : list uop :=
  map (fun i => UDatagram r now a (W1 c ks intro 0 (N.of_nat i) r)) (seq 0 n).
Lemma urun_app u ops1 u1 s1 e1 ops2 u2 s2 e2 : urun c ks u ops1 u1 s1 e1 -> urun c ks u1 ops2 u2 s2 e2 ->
  urun c ks u (ops1 ++ ops2) u2 (s1 ++ s2) (e1 ++ e2).
Proof.
  intros R1 R2. induction R1 as [u|u o u1 s e ops u' s' e' E R IH]; [exact R2|].
  cbn [app]. rewrite <- !app_assoc. exact (urun_cons c ks u o u1 s e _ _ _ _ E (IH R2)).
Qed.
Lemma flood_run B a now r : rnd_ok r -> us_sessions B = [] -> forall n, N.of_nat n <= 2 ^ 64 ->
  exists B' sent, urun c ks B (flood (us_intro B) a now r n) B' sent [] /\ us_intro B' = us_intro B /\ us_static B' = us_static B /\
    (forall i, (i < n)%nat -> exists s, nget (N.of_nat i) (us_sessions B') = Some (SlotIn s) /\ in_rtx s = rtx_inactive) /\
    (forall i, (n <= i)%nat -> nget (N.of_nat i) (us_sessions B') = None).
Proof.
  intros Or HB. induction n as [|n IH]; intros Hn.
  - exists B, []. split; [constructor|]. split; [reflexivity|]. split; [reflexivity|]. split; [intros; lia|]. intros i _. now rewrite HB.
  - destruct IH as (B' & sent & R & Hi & Hs & H1 & H2); [lia|].
    assert (Hg : nget (N.of_nat n) (us_sessions B') = None) by (apply H2; lia).
    pose proof (first_run c ks P K B' a 0 (N.of_nat n) r r ltac:(lia) ltac:(lia) Or Or now Hg) as E.
    unfold p1, B1 in E. rewrite Hi in E.
    eexists. eexists. split; [|split; [|split; [|split]]].
    + unfold flood. rewrite seq_S, map_app. cbn [map Nat.add].
      refine (urun_app B _ B' sent [] _ _ ([_] ++ []) ([] ++ []) R _).
      refine (urun_cons c ks B' _ _ [_] [] [] _ [] [] _ (urun_nil c ks _)). exact E.
    + exact Hi.
    + exact Hs.
    + intros i Hlt. destruct (Nat.eq_dec i n) as [->|Hne].
      * eexists. split; [apply nget_with|reflexivity].
      * rewrite nget_with_other by lia. apply H1. lia.
    + intros i Hle. rewrite nget_with_other by lia. apply H2. lia.
Qed.
End Proofs.
