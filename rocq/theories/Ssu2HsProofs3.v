(** Proofs about the SSU2 handshake: the socket, and a run between two sockets. *)
From Coq Require Import String List NArith Bool Arith Lia ZifyBool ZifyNat ZifyN.
From Verif Require Import ListUtil Bytes NMap PrimModel I2npModel EncModel NoiseModel Ntcp2Model Ssu2Model Ssu2Proofs2
  RouteProofs HandshakeModel HandshakeSpec HandshakeProofs Ssu2HsModel Ssu2HsSpec Ssu2HsProofs Ssu2HsProofs2.
Import ListNotations.
Open Scope N_scope.

Lemma beq_refl b : beq b b = true.
Proof. apply beq_eq. reflexivity. Qed.
Lemma addr_eqb_refl a : addr_eqb a a = true.
Proof. unfold addr_eqb. now rewrite beq_refl, N.eqb_refl. Qed.
Lemma lookup_head a i l : lookup_addr a ((a, i) :: l) = Some i.
Proof. unfold lookup_addr. cbn [find fst]. now rewrite addr_eqb_refl. Qed.

Section Proofs.
Variable c : hops.
Variable ks : bytes -> bytes -> nat -> bytes.
Hypothesis P : primitives_ok c.
Hypothesis K : stream_ok ks.
Let e := x_ext (h_ops c).
Let pub := x_pub (h_ops c).

Lemma nget_with u id x : nget id (us_sessions (with_session u id x)) = Some x.
Proof. cbn [with_session us_sessions]. rewrite nget_nput, N.eqb_refl. reflexivity. Qed.
Lemma nget_with_other u id x j : j <> id -> nget j (us_sessions (with_session u id x)) = nget j (us_sessions u).
Proof.
  intros H. cbn [with_session us_sessions]. rewrite nget_nput.
  destruct (N.eqb_spec j id); [contradiction|]. destruct (N.eqb_spec id j); [congruence|]. reflexivity.
Qed.

(** A packet masked with the socket's own intro key reaches the session it names. *)
Lemma own_dispatch u r now a h1 mid s x : length h1 = 8%nat -> (24 <= length s)%nat ->
  (8 + length mid + length s <= 2048)%nat -> nget (le_val h1) (us_sessions u) = Some x ->
  on_datagram c ks u r now a (xor8 (ks (us_intro u) (iv1 s) 8) h1 ++ mid ++ s) =
  to_session c ks u r now (le_val h1) x (h1 ++ mid ++ s).
Proof.
  intros L1 Ls Lp Hg. unfold on_datagram.
  rewrite firstn_all2 by (rewrite !app_length, xor8_length; lia).
  rewrite app_assoc, reader_new_wire by exact Ls. rewrite <- app_assoc.
  rewrite (reader_dst_wire ks K) by exact L1. rewrite Hg. reflexivity.
Qed.

(** A reply of a router that was dialed reaches the session it names, unless it is taken for
    something else. *)
Lemma other_dispatch u r now a intro h1 h2 mid s x : length h1 = 8%nat -> length h2 = 8%nat -> (24 <= length s)%nat ->
  (16 + length mid + length s <= 2048)%nat -> nget (le_val h1) (us_sessions u) = Some x ->
  lookup_addr a (us_outbound u) = Some intro ->
  ~ mistaken ks u (xor8 (ks intro (iv1 s) 8) h1 ++ h2 ++ mid ++ s) ->
  on_datagram c ks u r now a (xor8 (ks intro (iv1 s) 8) h1 ++ h2 ++ mid ++ s) =
  to_session c ks u r now (le_val h1) x (h1 ++ h2 ++ mid ++ s).
Proof.
  intros L1 L2 Ls Lp Hg Ha Hm. unfold on_datagram.
  set (m1 := xor8 (ks intro (iv1 s) 8) h1) in *.
  assert (Lm : length m1 = 8%nat) by (unfold m1; now rewrite xor8_length).
  rewrite firstn_all2 by (rewrite !app_length; lia).
  set (own1 := ks (us_intro u) (iv1 s) 8). set (own2 := ks (us_intro u) (iv2 s) 8).
  assert (Lo1 : length own1 = 8%nat) by apply ks_length, K.
  assert (Lo2 : length own2 = 8%nat) by apply ks_length, K.
  assert (V : own_view ks u (m1 ++ h2 ++ mid ++ s) = xor8 own1 m1 ++ xor8 own2 h2 ++ mid ++ s).
  { unfold own_view. fold (iv1 (m1 ++ h2 ++ mid ++ s)). fold (iv2 (m1 ++ h2 ++ mid ++ s)).
    rewrite !app_assoc, iv1_app, iv2_app by exact Ls. rewrite <- !app_assoc.
    fold own1. fold own2. rewrite <- Lm. rewrite firstn_exact, skipn_exact.
    rewrite (xor8_app own2) by lia. reflexivity. }
  unfold mistaken in Hm. rewrite V in Hm.
  replace (m1 ++ h2 ++ mid ++ s) with ((m1 ++ h2 ++ mid) ++ s) by (now rewrite <- !app_assoc).
  rewrite reader_new_wire by exact Ls. rewrite <- !app_assoc.
  unfold reader_dst at 1. unfold rd. cbn [hr_key hr_iv1 hr_iv2 hr_pkt]. fold own1.
  rewrite mask_at_0 by lia.
  assert (Lx : length (xor8 own1 m1) = 8%nat) by (now rewrite xor8_length).
  assert (F8 : forall t, firstn 8 (xor8 own1 m1 ++ t) = xor8 own1 m1) by (intros t; rewrite <- Lx at 1; apply firstn_exact).
  rewrite F8 in Hm. rewrite F8.
  destruct (nget (le_val (xor8 own1 m1)) (us_sessions u)) as [y|]; [exfalso; apply Hm; left; discriminate|].
  unfold reader_parse. cbn [hr_key hr_iv1 hr_iv2 hr_pkt]. fold own2.
  rewrite mask_at_app by lia. unfold byte_at.
  set (v := xor8 own1 m1 ++ xor8 own2 h2 ++ mid ++ s) in *.
  assert (N1 : ~ In (nth 12 v 0) [2; 6]) by (intros F; apply Hm; right; left; exact F).
  assert (N2 : nth 13 v 0 = 2 -> ~ In (nth 12 v 0) [0; 1; 9; 10]) by (intros G F; apply Hm; right; right; split; assumption).
  assert (Hr : forall A (x0 x1 : A),
    (if nth 13 v 0 =? 2 then x0 else x1) = x0 \/ nth 13 v 0 <> 2) by (intros; destruct (N.eqb_spec (nth 13 v 0) 2); auto).
  cbn [In] in N1, N2.
  set (back := fun p : bytes => mkReader (us_intro u) (iv1 s) (iv2 s) p).
  match goal with |- match ?m with _ => _ end = _ => assert (Em : m = Ok (None, back v)) end.
  { destruct (N.eqb_spec (nth 13 v 0) 2) as [E13|E13]; cbn [negb]; cbv zeta.
    - specialize (N2 E13).
      destruct (N.eqb_spec (nth 12 v 0) 0); [exfalso; apply N2; left; congruence|].
      destruct (N.eqb_spec (nth 12 v 0) 1); [exfalso; apply N2; right; left; congruence|].
      destruct (N.eqb_spec (nth 12 v 0) 2); [exfalso; apply N1; left; congruence|].
      destruct (N.eqb_spec (nth 12 v 0) 6); [exfalso; apply N1; right; left; congruence|].
      destruct (N.eqb_spec (nth 12 v 0) 9); [exfalso; apply N2; right; right; left; congruence|].
      destruct (N.eqb_spec (nth 12 v 0) 10); [exfalso; apply N2; right; right; right; left; congruence|]. reflexivity.
    - destruct (nth 12 v 0 =? 0); [reflexivity|]. destruct (nth 12 v 0 =? 1); [reflexivity|].
      destruct (N.eqb_spec (nth 12 v 0) 2); [exfalso; apply N1; left; congruence|].
      destruct (N.eqb_spec (nth 12 v 0) 6); [exfalso; apply N1; right; left; congruence|].
      destruct (nth 12 v 0 =? 9); [reflexivity|]. destruct (nth 12 v 0 =? 10); reflexivity. }
  rewrite Em. clear Em. rewrite Ha. unfold back, v.
  unfold reader_reset. cbn [hr_key hr_iv1 hr_iv2 hr_pkt]. fold own1. fold own2.
  rewrite mask_at_0 by lia. rewrite xor8_twice. rewrite mask_at_app by (rewrite ?xor8_length; lia). rewrite xor8_twice.
  change (mkReader intro (iv1 s) (iv2 s) (m1 ++ h2 ++ mid ++ s)) with (rd intro s (m1 ++ h2 ++ mid ++ s)).
  unfold m1. rewrite (reader_dst_wire ks K) by exact L1. rewrite Hg. reflexivity.
Qed.

(** ... if it is taken for a message, it is dropped. *)
Lemma misread_dropped u r now a p : (24 <= length p <= 2048)%nat ->
  nget (le_val (firstn 8 (own_view ks u p))) (us_sessions u) = None ->
  In (nth 12 (own_view ks u p) 0) [2; 6] -> on_datagram c ks u r now a p = Some (u, [], []).
Proof.
  intros Lp Hg Hty. unfold on_datagram. rewrite firstn_all2 by lia. unfold reader_new.
  destruct (Nat.ltb_spec (length p) 24); [lia|].
  unfold reader_dst. cbn [hr_key hr_iv1 hr_iv2 hr_pkt].
  assert (V : own_view ks u p = mask_at 8 (ks (us_intro u) (skipn (length p - 12) p) 8)
                (mask_at 0 (ks (us_intro u) (firstn 12 (skipn (length p - 24) p)) 8) p)).
  { unfold own_view. cbv zeta. set (o1 := ks _ _ 8). set (o2 := ks _ _ 8).
    assert (L1 : length o1 = 8%nat) by apply ks_length, K.
    rewrite <- (firstn_skipn 8 p) at 3. 
    assert (Lf : length (firstn 8 p) = 8%nat) by (rewrite firstn_length; lia).
    rewrite mask_at_0 by lia.
    assert (Lx : length (xor8 o1 (firstn 8 p)) = 8%nat) by (now rewrite xor8_length).
    unfold mask_at. pose proof (@firstn_exact _ (xor8 o1 (firstn 8 p)) (skipn 8 p)) as F. rewrite Lx in F.
    pose proof (@skipn_exact _ (xor8 o1 (firstn 8 p)) (skipn 8 p)) as G. rewrite Lx in G. rewrite F, G. reflexivity. }
  rewrite V in Hg, Hty.
  set (o1 := ks (us_intro u) (firstn 12 (skipn (length p - 24) p)) 8) in *.
  set (o2 := ks (us_intro u) (skipn (length p - 12) p) 8) in *.
  assert (F : firstn 8 (mask_at 8 o2 (mask_at 0 o1 p)) = firstn 8 (mask_at 0 o1 p)).
  { unfold mask_at at 1. rewrite firstn_app, firstn_firstn. rewrite firstn_length, mask_at_length.
    replace (8 - Nat.min 8 (length p))%nat with 0%nat by lia. rewrite firstn_O, app_nil_r. change (Nat.min 8 8) with 8%nat. reflexivity. }
  rewrite F in Hg. rewrite Hg. unfold reader_parse. cbn [hr_key hr_iv1 hr_iv2 hr_pkt]. fold o2. unfold byte_at.
  cbv zeta. set (v := mask_at 8 o2 (mask_at 0 o1 p)) in *.
  destruct Hty as [E|[E|[]]]; rewrite <- E; reflexivity.
Qed.

(** ** The run *)
Section Run.
Variables (A B : usock) (rA rB : router_info) (aA aB : addr) (src dst : N).
Variables (r1 r2 r3 r4 : rnd).
Hypothesis Pb : publishes c rB B aB.
Hypothesis Hsrc : src < 2 ^ 64.
Hypothesis Hdst : dst < 2 ^ 64.
Hypothesis HaA : addr_ok aA.
Hypothesis O1 : rnd_ok r1.
Hypothesis O2 : rnd_ok r2.
Hypothesis O3 : rnd_ok r3.
Hypothesis O4 : rnd_ok r4.

Definition p1 : bytes := W1 c ks (us_intro B) src dst r1.
Definition A1 (now : N) : usock :=
  mkUsock (us_intro A) (us_static A) (us_info A) (us_router A)
    (nput src (SlotOut (out1 c (us_intro B) (us_static B) (us_static A) (us_info A) src dst aB (us_router A)
                          (rtx_token_request p1 now))) (us_sessions A))
    ((aB, us_intro B) :: us_outbound A).
Lemma connect_run now : connect c ks A rB src dst r1 now = Some (A1 now, [(aB, p1)], []).
Proof.
  destruct Pb as (Hi & Hs & ra & Hra & Hsock). unfold connect. rewrite Hi, Hs, Hra, Hsock.
  unfold out_new. rewrite (token_request_ok c ks P K (us_intro B) [] src dst r1 O1). cbn [rbind].
  reflexivity.
Qed.

Definition p2 : bytes := W2 c ks (us_intro B) src dst aA r2.
Definition B1 : usock := with_session B dst (SlotIn (in1 c (us_intro B) (us_static B) src dst aA r2)).
Lemma first_dispatch now a r : nget dst (us_sessions B) = None ->
  on_datagram c ks B r now a p1 =
  match in_new c ks a (mkNctx (u_ck c) (u_in c (us_static B))) dst src (r_num r1) (us_intro B) (us_static B)
    (le_bytes 8 dst ++ h2_of (r_num r1) 10 [2; 2; 0] ++ (le_bytes 8 src ++ be_bytes 8 0) ++ S1 c (us_intro B) src dst r1) r with
  | Panic => None
  | Err => Some (B, [], [])
  | Ok (s, out) => Some (with_session B dst (SlotIn s), map (pair a) out, [])
  end.
Proof.
  intros Hg. pose proof (W1_length c ks P (us_intro B) src dst r1) as LW. destruct O1 as (Hn & Hp & _).
  pose proof (S1_length c P (us_intro B) src dst r1) as LS.
  unfold p1, on_datagram. rewrite firstn_all2 by lia.
  unfold W1, wire. rewrite !app_assoc, reader_new_wire by lia. rewrite <- !app_assoc.
  rewrite (reader_dst_wire ks K) by apply le_bytes_length.
  rewrite le_ok by exact Hdst. rewrite Hg.
  assert (L3 : length (le_bytes 8 src ++ be_bytes 8 0) = 16%nat)
    by (rewrite app_length, le_bytes_length, be_bytes_length; reflexivity).
  rewrite (reader_parse_long ks K); [|apply le_bytes_length|exact Hn|right; split; [right; left; reflexivity|exact L3]].
  unfold parsed. change (10 =? 0) with false. change (10 =? 1) with false. change (10 =? 2) with false.
  change (10 =? 6) with false. change (10 =? 9) with false. change (10 =? 10) with true. cbv iota.
  cbn [rd hr_pkt].
  assert (E : le_val (part 16 8 (le_bytes 8 dst ++ h2_of (r_num r1) 10 [2; 2; 0] ++ (le_bytes 8 src ++ be_bytes 8 0) ++
                S1 c (us_intro B) src dst r1)) = src).
  { rewrite <- (app_assoc (le_bytes 8 src)). rewrite (app_assoc (le_bytes 8 dst)). rewrite part_app.
    - apply le_ok; exact Hsrc.
    - rewrite app_length, le_bytes_length, h2_length. reflexivity.
    - apply le_bytes_length. }
  rewrite E. reflexivity.
Qed.
Lemma first_run now : nget dst (us_sessions B) = None ->
  on_datagram c ks B r2 now aA p1 = Some (B1, [(aA, p2)], []).
Proof.
  intros Hg. rewrite first_dispatch by exact Hg.
  change (mkNctx (u_ck c) (u_in c (us_static B))) with (ctx0 c (us_static B)).
  rewrite (in_new_ok c ks P K (us_intro B) (us_static B) []) by assumption. reflexivity.
Qed.

Definition p3 (tok : bytes) : bytes := W3 c ks (us_intro B) (us_static B) src dst r3 tok.
Definition A2 (u : usock) (now : N) : usock :=
  with_session u src (SlotOut (out2 c ks (us_intro B) (us_static B) (us_static A) (us_info A) src dst aB (us_router A)
    r3 (tok2 r2) now)).
Lemma retry_run t1 now : ~ mistaken ks (A1 t1) p2 ->
  on_datagram c ks (A1 t1) r3 now aB p2 = Some (A2 (A1 t1) now, [(aB, p3 (tok2 r2))], []).
Proof.
  intros Hm. pose proof (S2_length c P (us_intro B) src dst aA r2) as LS.
  destruct HaA as [La _]. pose proof O2 as (_ & Hp & _).
  assert (L3 : length (le_bytes 8 dst ++ be_bytes 8 (r_token r2)) = 16%nat)
    by (rewrite app_length, le_bytes_length, be_bytes_length; reflexivity).
  unfold p2, W2, wire in *. rewrite L3 in *.
  rewrite (other_dispatch (A1 t1) r3 now aB (us_intro B) (le_bytes 8 src) _ _ _
            (SlotOut (out1 c (us_intro B) (us_static B) (us_static A) (us_info A) src dst aB (us_router A)
                          (rtx_token_request p1 t1))));
    [|apply le_bytes_length|rewrite xor8_length; apply h2_length|lia|rewrite xor8_length, L3; lia| |apply lookup_head|exact Hm].
  2: { rewrite le_ok by exact Hsrc. cbn [A1 us_sessions]. rewrite nget_nput, N.eqb_refl. reflexivity. }
  rewrite le_ok by exact Hsrc. cbn [to_session].
  unfold out_packet. cbn [out1 ou_st].
  pose proof (on_retry_ok c ks P K (us_intro B) (us_static B) (us_static A) (us_info A) src dst aA aB (us_router A)
                (rtx_token_request p1 t1) r2 r3 now O2 O3) as E.
  unfold out1, R2 in E. fold pub in E. unfold out1. fold pub. rewrite E. reflexivity.
Qed.

Definition p4 (tok : bytes) : bytes := W4 c ks (us_intro B) (us_static B) src dst aA r3 r4 tok.
Definition B2 (u : usock) (tok : bytes) (now : N) : usock :=
  with_session u dst (SlotIn (in2 c ks (us_intro B) (us_static B) src dst aA r3 r4 tok now)).
Lemma request_run a now tok : length tok = 8%nat ->
  on_datagram c ks B1 r4 now a (p3 tok) = Some (B2 B1 tok now, [(aA, p4 tok)], []).
Proof.
  intros Lt. pose proof (S3_length c P (us_static B) src dst r3 tok) as LS.
  pose proof O3 as (_ & Hp & _). pose proof (pub_length c P (r_eph r3)) as Lp.
  assert (L3 : length (le_bytes 8 src ++ tok ++ x_pub (h_ops c) (r_eph r3)) = 48%nat)
    by (rewrite !app_length, le_bytes_length, Lt, Lp; reflexivity).
  unfold p3, W3, wire. rewrite L3.
  replace (xor8 (ks (us_intro B) (iv1 (S3 c (us_static B) src dst r3 tok)) 8) (le_bytes 8 dst) ++
           xor8 (ks (us_intro B) (iv2 (S3 c (us_static B) src dst r3 tok)) 8) (h2_of (r_num r3) 0 [2; 2; 0]) ++
           xor8 (ks (us_intro B) zero_iv 48) (le_bytes 8 src ++ tok ++ x_pub (h_ops c) (r_eph r3)) ++
           S3 c (us_static B) src dst r3 tok)
    with (xor8 (ks (us_intro B1) (iv1 (S3 c (us_static B) src dst r3 tok)) 8) (le_bytes 8 dst) ++
           (xor8 (ks (us_intro B) (iv2 (S3 c (us_static B) src dst r3 tok)) 8) (h2_of (r_num r3) 0 [2; 2; 0]) ++
           xor8 (ks (us_intro B) zero_iv 48) (le_bytes 8 src ++ tok ++ x_pub (h_ops c) (r_eph r3))) ++
           S3 c (us_static B) src dst r3 tok) by (rewrite <- !app_assoc; reflexivity).
  rewrite (own_dispatch B1 r4 now a _ _ _ (SlotIn (in1 c (us_intro B) (us_static B) src dst aA r2)));
    [|apply le_bytes_length|lia|rewrite app_length, !xor8_length, h2_length, L3; lia|].
  2: { rewrite le_ok by exact Hdst. apply nget_with. }
  rewrite le_ok by exact Hdst. cbn [to_session]. unfold in_packet. cbn [in1 in_st].
  pose proof (on_session_request_ok c ks P K (us_intro B) (us_static B) src dst aA r3 r4 tok (r_token r2) rtx_inactive now Lt O3 O4) as E.
  unfold R3 in E. fold pub in E. fold pub. unfold in1. rewrite <- app_assoc.
  rewrite E. reflexivity.
Qed.

Definition p5 (tok : bytes) : bytes := W5 c ks (us_intro B) (us_static B) (us_static A) (us_info A) src dst aA r3 r4 tok.
Definition A3 (u : usock) (tok : bytes) (now : N) : usock :=
  with_session u src (SlotOut (out3 c ks (us_intro B) (us_static B) (us_static A) (us_info A) src dst aA aB (us_router A) r3 r4 tok now)).
Lemma created_run u t now tok : nget src (us_sessions u) =
    Some (SlotOut (out2 c ks (us_intro B) (us_static B) (us_static A) (us_info A) src dst aB (us_router A) r3 tok t)) ->
  lookup_addr aB (us_outbound u) = Some (us_intro B) -> length tok = 8%nat -> (3 <= length (us_info A))%nat ->
  ~ mistaken ks u (p4 tok) -> forall r,
  on_datagram c ks u r now aB (p4 tok) = Some (A3 u tok now, [(aB, p5 tok)], []).
Proof.
  intros Hg Ha Lt Hi Hm r. pose proof (S4_length c P (us_static B) src dst aA r3 r4 tok) as LS.
  destruct HaA as [La _]. pose proof O4 as (_ & Hp & _). pose proof (pub_length c P (r_eph r4)) as Lp.
  assert (L3 : length (le_bytes 8 dst ++ be_bytes 8 0 ++ x_pub (h_ops c) (r_eph r4)) = 48%nat)
    by (rewrite !app_length, le_bytes_length, be_bytes_length, Lp; reflexivity).
  unfold p4, W4, wire in *. rewrite L3 in *.
  rewrite (other_dispatch u r now aB (us_intro B) (le_bytes 8 src) _ _ _
            (SlotOut (out2 c ks (us_intro B) (us_static B) (us_static A) (us_info A) src dst aB (us_router A) r3 tok t)));
    [|apply le_bytes_length|rewrite xor8_length; apply h2_length|lia|rewrite xor8_length, L3; lia| |exact Ha|exact Hm].
  2: { rewrite le_ok by exact Hsrc. exact Hg. }
  rewrite le_ok by exact Hsrc. cbn [to_session].
  unfold out_packet. cbn [out2 ou_st].
  pose proof (on_session_created_ok c ks P K (us_intro B) (us_static B) (us_static A) (us_info A) src dst aA aB (us_router A)
                r3 r4 tok (rtx_session_request (W3 c ks (us_intro B) (us_static B) src dst r3 tok) t) now O4 Hi) as E.
  unfold R4 in E. fold pub in E. unfold out2. fold pub. rewrite E. reflexivity.
Qed.

Definition xb (introA : bytes) (rA : router_info) (tok : bytes) : sctx :=
  mkSctx aA src introA (dab c (us_static B) (us_static A) src dst aA r3 r4 tok)
    (dba c (us_static B) (us_static A) src dst aA r3 r4 tok) (ri_hash (rf_identity rA)).
Definition xa (tok : bytes) : sctx :=
  mkSctx aB dst (us_intro B) (dba c (us_static B) (us_static A) src dst aA r3 r4 tok)
    (dab c (us_static B) (us_static A) src dst aA r3 r4 tok) (us_router A).
Lemma confirmed_run u a r t now tok introA : us_intro u = us_intro B ->
  nget dst (us_sessions u) = Some (SlotIn (in2 c ks (us_intro B) (us_static B) src dst aA r3 r4 tok t)) ->
  (3 <= length (us_info A) <= 1963)%nat -> parse_info c (us_info A) = Some rA -> ssu2_intro_key rA = Some introA ->
  exists p6,
    build_packet (session_crypt c) (fun k iv => ks k iv 8%nat) (send_keys (xb introA rA tok)) src 0 ackp = Some p6 /\
    on_datagram c ks u r now a (p5 tok) =
    Some (with_session u dst (SlotActive (xb introA rA tok)), [(aA, p6)], [Established true (ri_hash (rf_identity rA))]).
Proof.
  intros Hu Hg Hi Hr Hk.
  pose proof (S5_length c P (us_static B) (us_static A) (us_info A) src dst aA r3 r4 tok) as LS.
  pose proof (SP_length c P (us_static B) (us_static A) src dst aA r3 r4 tok) as LP.
  destruct (on_session_confirmed_ok c ks P K (us_intro B) (us_static B) (us_static A) (us_info A) src dst aA r3 r4 tok
              (rtx_session_created (W4 c ks (us_intro B) (us_static B) src dst aA r3 r4 tok) t) rA introA) as (ack & H1 & H2);
    [lia|lia|exact Hr|exact Hk|].
  exists ack. split; [exact H1|].
  unfold p5, W5. rewrite <- Hu at 1.
  set (S5' := S5 c (us_static B) (us_static A) (us_info A) src dst aA r3 r4 tok) in *.
  set (SP' := SP c (us_static B) (us_static A) src dst aA r3 r4 tok) in *.
  rewrite (app_assoc _ SP' S5').
  rewrite (own_dispatch u r now a _ _ _ (SlotIn (in2 c ks (us_intro B) (us_static B) src dst aA r3 r4 tok t)));
    [|apply le_bytes_length|lia|rewrite app_length, !xor8_length, h2_length; lia|].
  2: { rewrite le_ok by exact Hdst. exact Hg. }
  rewrite le_ok by exact Hdst. cbn [to_session]. unfold in_packet. cbn [in2 in_st].
  unfold R5 in H2. fold S5' SP' in H2. rewrite <- app_assoc. unfold in2. rewrite H2. cbn [on_over sc_router]. reflexivity.
Qed.

Lemma ack_run u a r t now tok introA p6 : us_intro u = introA ->
  nget src (us_sessions u) = Some (SlotOut (out3 c ks (us_intro B) (us_static B) (us_static A) (us_info A) src dst aA aB
                                     (us_router A) r3 r4 tok t)) ->
  build_packet (session_crypt c) (fun k iv => ks k iv 8%nat) (send_keys (xb introA rA tok)) src 0 ackp = Some p6 ->
  on_datagram c ks u r now a p6 =
  Some (with_session u src (SlotActive (xa tok)), [], [Established false (us_router A)]).
Proof.
  intros Hu Hg Hb. unfold build_packet in Hb. cbn [send_keys xb k_data k_intro k_header_2 sc_intro sc_send seal session_crypt] in Hb.
  match type of Hb with context [(length ?s <? 24)%nat] => set (z := s) in * end.
  assert (Lz : length z = 24%nat) by (unfold z; rewrite (p_seal_len c P); reflexivity).
  destruct (Nat.ltb_spec (length z) 24); [lia|].
  fold (iv1 z) in Hb. fold (iv2 z) in Hb.
  assert (Eh : firstn 8 (short_header src 0) = le_bytes 8 src) by reflexivity.
  rewrite Eh, <- Hu in Hb. injection Hb as <-.
  rewrite (own_dispatch u r now a _ _ _
            (SlotOut (out3 c ks (us_intro B) (us_static B) (us_static A) (us_info A) src dst aA aB (us_router A) r3 r4 tok t)));
    [|apply le_bytes_length|lia|rewrite xor8_length; change (length (skipn 8 (short_header src 0))) with 8%nat; fold z; rewrite Lz; apply Nat.leb_le; reflexivity|rewrite le_ok by exact Hsrc; exact Hg].
  rewrite le_ok by exact Hsrc. cbn [to_session]. unfold out_packet. cbn [out3 ou_st]. unfold out3. rewrite on_data_ok. reflexivity.
Qed.
End Run.
End Proofs.
