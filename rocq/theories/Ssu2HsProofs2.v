(** Proofs about the SSU2 handshake: an undisturbed run. *)
From Coq Require Import String List NArith Bool Arith Lia ZifyBool ZifyNat ZifyN.
From Verif Require Import ListUtil Bytes NMap PrimModel I2npModel EncModel NoiseModel Ntcp2Model Ssu2Model Ssu2Proofs2
  HandshakeModel HandshakeSpec HandshakeProofs Ssu2HsModel Ssu2HsSpec Ssu2HsProofs.
Import ListNotations.
Open Scope N_scope.

Lemma long_split dst num ty src token :
  long_header dst num ty src token = le_bytes 8 dst ++ h2_of num ty [2; 2; 0] ++ le_bytes 8 src ++ token.
Proof. unfold long_header, h2_of. cbn [app]. rewrite <- !app_assoc. reflexivity. Qed.
Lemma h2_length num ty a b d : length (h2_of num ty [a; b; d]) = 8%nat.
Proof. unfold h2_of. rewrite !app_length, be_bytes_length. reflexivity. Qed.
Lemma long_length dst num ty src token : length (long_header dst num ty src token) = (24 + length token)%nat.
Proof. rewrite long_split, !app_length, h2_length, !le_bytes_length. lia. Qed.
Lemma date_length secs : length (date_block secs) = 7%nat.
Proof. unfold date_block. rewrite !app_length, !be_bytes_length. reflexivity. Qed.
Lemma padding_length p : length (padding_block p) = (3 + length p)%nat.
Proof. unfold padding_block. rewrite !app_length, !be_bytes_length. reflexivity. Qed.
Lemma address_length a : length (address_block a) = (5 + length (fst a))%nat.
Proof. unfold address_block. rewrite !app_length, !be_bytes_length. reflexivity. Qed.
Lemma info_length i : length (info_block i) = (5 + length i)%nat.
Proof. unfold info_block. rewrite !app_length, !be_bytes_length. reflexivity. Qed.
Lemma slice_end (a b : bytes) n : length a = n -> slice (a ++ b) n (length (a ++ b)) = Some b.
Proof.
  intros <-. rewrite <- (app_nil_r b) at 1. apply slice_app; [reflexivity|rewrite app_length; reflexivity].
Qed.
Lemma slice_begin (a b : bytes) n : length a = n -> slice (a ++ b) 0 n = Some a.
Proof. intros <-. apply (slice_app [] a b 0 (length a)); reflexivity. Qed.

Section Proofs.
Variable c : hops.
Variable ks : bytes -> bytes -> nat -> bytes.
Hypothesis P : primitives_ok c.
Hypothesis K : stream_ok ks.
Let e := x_ext (h_ops c).
Let pub := x_pub (h_ops c).

Lemma mix_key_hash n b x y : mix_key c (mix_hash c n b) x y =
  (mix_hash c (fst (mix_key c n x y)) b, snd (mix_key c n x y)).
Proof. reflexivity. Qed.
Lemma mix_key_comm n x y : mix_key c n x (pub y) = mix_key c n y (pub x).
Proof. unfold mix_key, pub. now rewrite (p_dh c P x y). Qed.
Lemma sealed_length k n ad p : length (seal_with c k n ad p) = (length p + 16)%nat.
Proof. apply (p_seal_len c P). Qed.
Lemma opened k n ad p : open_with c k n ad (seal_with c k n ad p) = Some p.
Proof. apply (p_open c P). Qed.

(** ** session headers *)
Lemma session_long k1 k2 h1 num ty net flag h3 s kind : length h1 = 8%nat -> num < 2 ^ 32 -> (24 <= length s)%nat ->
  In ty [0; 1] /\ length h3 = 48%nat \/ In ty [9; 10] /\ length h3 = 16%nat ->
  parsed ty num net (h1 ++ h2_of num ty [2; net; flag] ++ h3 ++ s) = Some kind ->
  session_header ks k1 k2 (h1 ++ xor8 (ks k2 (iv2 s) 8) (h2_of num ty [2; net; flag]) ++
                           xor8 (ks k2 zero_iv (length h3)) h3 ++ s) =
  Ok (kind, h1 ++ h2_of num ty [2; net; flag] ++ h3 ++ s).
Proof.
  intros L1 Hn Ls Hty Hp. unfold session_header.
  replace (h1 ++ xor8 (ks k2 (iv2 s) 8) (h2_of num ty [2; net; flag]) ++ xor8 (ks k2 zero_iv (length h3)) h3 ++ s)
    with ((h1 ++ xor8 (ks k2 (iv2 s) 8) (h2_of num ty [2; net; flag]) ++ xor8 (ks k2 zero_iv (length h3)) h3) ++ s)
    by (now rewrite <- !app_assoc).
  rewrite (reader_new_wire k1 _ s Ls). cbn [rbind]. rewrite <- !app_assoc.
  rewrite (reader_parse_long ks K) by assumption. cbn [rbind]. rewrite Hp. reflexivity.
Qed.
Lemma session_confirmed k1 k2 h1 num tail s0 s : length h1 = 8%nat -> num < 2 ^ 32 -> (24 <= length s)%nat ->
  length tail = 3%nat ->
  session_header ks k1 k2 (h1 ++ xor8 (ks k2 (iv2 s) 8) (h2_of num 2 tail) ++ s0 ++ s) =
  Ok (HSessionConfirmed num, h1 ++ h2_of num 2 tail ++ s0 ++ s).
Proof.
  intros L1 Hn Ls Hty. unfold session_header.
  replace (h1 ++ xor8 (ks k2 (iv2 s) 8) (h2_of num 2 tail) ++ s0 ++ s)
    with ((h1 ++ xor8 (ks k2 (iv2 s) 8) (h2_of num 2 tail) ++ s0) ++ s)
    by (now rewrite <- !app_assoc).
  rewrite (reader_new_wire k1 _ s Ls). cbn [rbind]. rewrite <- !app_assoc.
  rewrite (reader_parse_confirmed ks K) by assumption. reflexivity.
Qed.

(** ** The messages *)
Section Run.
Variables (intro bst ast info : bytes) (src dst : N) (aA : addr).

Lemma le_ok n : n < 2 ^ 64 -> le_val (le_bytes 8 n) = n.
Proof. intros H. apply le_val_bytes. exact H. Qed.

(** TokenRequest *)
Definition H1 (r : rnd) : bytes := long_header dst (r_num r) 10 src (be_bytes 8 0).
Definition S1 (r : rnd) : bytes :=
  seal_with c intro (r_num r) (H1 r) (date_block (r_secs r) ++ padding_block (r_pad r)).
Definition W1 (r : rnd) : bytes :=
  wire ks intro intro (le_bytes 8 dst) (h2_of (r_num r) 10 [2; 2; 0]) (le_bytes 8 src ++ be_bytes 8 0) (S1 r).
Lemma S1_length r : length (S1 r) = (26 + length (r_pad r))%nat.
Proof using P. unfold S1. rewrite sealed_length, app_length, date_length, padding_length. ring. Qed.
Lemma W1_length r : length (W1 r) = (58 + length (r_pad r))%nat.
Proof using P. unfold W1. rewrite wire_length, S1_length, app_length, h2_length, !le_bytes_length, be_bytes_length. ring. Qed.
Lemma token_request_ok r : rnd_ok r -> token_request c ks intro dst src r = Ok (W1 r).
Proof.
  intros (_ & Hp & _). unfold token_request. fold (H1 r). fold (S1 r). unfold H1 at 1. rewrite long_split.
  pose proof (S1_length r).
  apply (wire_built ks K); [apply le_bytes_length|apply h2_length|lia].
Qed.
Definition ctx0 : nctx := mkNctx (u_ck c) (u_in c bst).

(** Retry *)
Definition H2 (r : rnd) : bytes := long_header src (r_num r) 9 dst (be_bytes 8 (r_token r)).
Definition S2 (r : rnd) : bytes :=
  seal_with c intro (r_num r) (H2 r) (date_block (r_secs r) ++ address_block aA ++ padding_block (r_pad r)).
Definition W2 (r : rnd) : bytes :=
  wire ks intro intro (le_bytes 8 src) (h2_of (r_num r) 9 [2; 2; 0]) (le_bytes 8 dst ++ be_bytes 8 (r_token r)) (S2 r).
Lemma S2_length r : length (S2 r) = (31 + length (fst aA) + length (r_pad r))%nat.
Proof using P. unfold S2. rewrite sealed_length, !app_length, date_length, padding_length, address_length. ring. Qed.
Lemma W2_length r : length (W2 r) = (63 + length (fst aA) + length (r_pad r))%nat.
Proof using P. unfold W2. rewrite wire_length, S2_length, app_length, h2_length, !le_bytes_length, be_bytes_length. ring. Qed.
Lemma retry_ok r : retry c ks intro src dst (r_token r) aA r = Ok (W2 r) \/ (length (r_pad r) = 0)%nat.
Proof.
  destruct (Nat.eq_dec (length (r_pad r)) 0) as [E|E]; [now right|left].
  unfold retry. fold (H2 r). fold (S2 r). unfold H2 at 1. rewrite long_split.
  pose proof (S2_length r).
  apply (wire_built ks K); [apply le_bytes_length|apply h2_length|lia].
Qed.

Definition in1 (r : rnd) : in_session := mkIn aA dst src intro bst ctx0 (InRequest (r_token r)) rtx_inactive.
Lemma in_new_ok r1 r2 : rnd_ok r1 -> rnd_ok r2 ->
  in_new c ks aA ctx0 dst src (r_num r1) intro bst
    (le_bytes 8 dst ++ h2_of (r_num r1) 10 [2; 2; 0] ++ (le_bytes 8 src ++ be_bytes 8 0) ++ S1 r1) r2 =
  Ok (in1 r2, [W2 r2]).
Proof.
  intros (Hn1 & Hp1 & _) (Hn2 & Hp2 & _). unfold in_new.
  assert (E : le_bytes 8 dst ++ h2_of (r_num r1) 10 [2; 2; 0] ++ (le_bytes 8 src ++ be_bytes 8 0) ++ S1 r1 = H1 r1 ++ S1 r1).
  { unfold H1. rewrite long_split. now rewrite <- !app_assoc. }
  rewrite E.
  assert (L : length (H1 r1) = 32%nat) by (unfold H1; now rewrite long_length, be_bytes_length).
  rewrite slice_end by exact L. cbn [or_panic rbind].
  rewrite <- L at 1. rewrite firstn_exact. unfold S1 at 1. rewrite opened. cbn [or_err rbind].
  destruct (s_parse_request c (r_secs r1) (r_pad r1) ltac:(lia)) as [bs ->].
  destruct (retry_ok r2) as [-> | F]; [reflexivity|lia].
Qed.

(** SessionRequest, with the eight bytes [tok] in the place of the token *)
Definition kA (r3 : rnd) : nctx * bytes := mix_key c ctx0 (r_eph r3) (pub bst).
Definition H3 (r3 : rnd) (tok : bytes) : bytes := long_header dst (r_num r3) 0 src tok.
Definition nA (r3 : rnd) (tok : bytes) : nctx :=
  mix_hash c (mix_hash c (fst (kA r3)) (H3 r3 tok)) (pub (r_eph r3)).
Definition S3 (r3 : rnd) (tok : bytes) : bytes :=
  seal_with c (snd (kA r3)) 0 (n_h (nA r3 tok)) (date_block (r_secs r3) ++ padding_block (r_pad r3)).
Definition n3 (r3 : rnd) (tok : bytes) : nctx := mix_hash c (nA r3 tok) (S3 r3 tok).
Definition W3 (r3 : rnd) (tok : bytes) : bytes :=
  wire ks intro intro (le_bytes 8 dst) (h2_of (r_num r3) 0 [2; 2; 0]) (le_bytes 8 src ++ tok ++ pub (r_eph r3)) (S3 r3 tok).
Lemma S3_length r tok : length (S3 r tok) = (26 + length (r_pad r))%nat.
Proof using P. unfold S3. rewrite sealed_length, app_length, date_length, padding_length. ring. Qed.
Lemma pub_length k : length (pub k) = 32%nat. Proof. apply (p_pub c P). Qed.
Lemma W3_length r tok : length tok = 8%nat -> length (W3 r tok) = (90 + length (r_pad r))%nat.
Proof using P.
  intros H. unfold W3. rewrite wire_length, S3_length, !app_length, h2_length, !le_bytes_length, H, pub_length. ring.
Qed.

(** The dialing session *)
Definition out1 (aB : addr) (router : bytes) (rt : rtx) : out_session :=
  mkOut aB dst src intro router ctx0 (OutRetry ast info (pub bst)) rt.
Definition out2 (aB : addr) (router : bytes) (r3 : rnd) (tok : bytes) (now : N) : out_session :=
  mkOut aB dst src intro router (n3 r3 tok) (OutCreated (r_eph r3) ast info) (rtx_session_request (W3 r3 tok) now).

Lemma header_wire3 r3 tok : length tok = 8%nat -> rnd_ok r3 ->
  rbind (mask_first ks intro intro (H3 r3 tok ++ pub (r_eph r3)) (S3 r3 tok))
    (fun h => Ok (mask_rest ks intro h ++ S3 r3 tok)) = Ok (W3 r3 tok).
Proof.
  intros Lt (_ & Hp & _). unfold H3. rewrite long_split.
  replace ((le_bytes 8 dst ++ h2_of (r_num r3) 0 [2; 2; 0] ++ le_bytes 8 src ++ tok) ++ pub (r_eph r3))
    with (le_bytes 8 dst ++ h2_of (r_num r3) 0 [2; 2; 0] ++ le_bytes 8 src ++ tok ++ pub (r_eph r3)) by (now rewrite <- !app_assoc).
  pose proof (S3_length r3 tok).
  apply (wire_built ks K); [apply le_bytes_length|apply h2_length|lia].
Qed.
Definition token_of (r2 : rnd) : N := le_val (be_bytes 8 (r_token r2)).
Definition tok2 (r2 : rnd) : bytes := le_bytes 8 (token_of r2).
(** the part of a packet behind the unmasked connection id *)
Definition R2 (r2 : rnd) : bytes :=
  le_bytes 8 src ++ xor8 (ks intro (iv2 (S2 r2)) 8) (h2_of (r_num r2) 9 [2; 2; 0]) ++
  xor8 (ks intro zero_iv 16) (le_bytes 8 dst ++ be_bytes 8 (r_token r2)) ++ S2 r2.
Lemma on_retry_ok aB router rt r2 r3 now : rnd_ok r2 -> rnd_ok r3 ->
  on_retry c ks (out1 aB router rt) ast info (pub bst) r3 now (R2 r2) =
  Ok (out2 aB router r3 (tok2 r2) now, [W3 r3 (tok2 r2)]).
Proof.
  intros (Hn2 & Hp2 & Ht2) R3. unfold on_retry, out1. cbn [ou_intro ou_ctx ou_dst ou_src ou_addr ou_router].
  assert (L3 : length (le_bytes 8 dst ++ be_bytes 8 (r_token r2)) = 16%nat)
    by (rewrite app_length, le_bytes_length, be_bytes_length; reflexivity).
  pose proof (S2_length r2) as LS.
  unfold R2. replace (ks intro zero_iv 16) with (ks intro zero_iv (length (le_bytes 8 dst ++ be_bytes 8 (r_token r2)))) by (now rewrite L3).
  rewrite (session_long intro intro (le_bytes 8 src) (r_num r2) 9 2 0 _ (S2 r2) (HRetry 2 (r_num r2) (token_of r2))).
  2: apply le_bytes_length. 2: exact Hn2. 2: lia.
  2: { right. split; [left; reflexivity|exact L3]. }
  2: { unfold parsed. change (9 =? 0) with false. change (9 =? 1) with false. change (9 =? 2) with false.
       change (9 =? 6) with false. change (9 =? 9) with true. cbv iota. do 2 f_equal. }
  cbn [rbind].
  replace (le_bytes 8 src ++ h2_of (r_num r2) 9 [2; 2; 0] ++ (le_bytes 8 dst ++ be_bytes 8 (r_token r2)) ++ S2 r2)
    with (H2 r2 ++ S2 r2) by (unfold H2; rewrite long_split; now rewrite <- !app_assoc).
  assert (L2 : length (H2 r2) = 32%nat) by (unfold H2; now rewrite long_length, be_bytes_length).
  rewrite slice_end by exact L2. cbn [or_panic rbind].
  rewrite <- L2 at 1. rewrite firstn_exact. unfold S2 at 1. rewrite opened. cbn [or_err rbind].
  change (mix_key c ctx0 (r_eph r3) (pub bst)) with (kA r3). rewrite (surjective_pairing (kA r3)).
  fold (pub (r_eph r3)). fold (tok2 r2). fold (H3 r3 (tok2 r2)). fold (nA r3 (tok2 r2)). fold (S3 r3 (tok2 r2)).
  pose proof (header_wire3 r3 (tok2 r2) (le_bytes_length _ _) R3) as E.
  destruct (mask_first ks intro intro (H3 r3 (tok2 r2) ++ pub (r_eph r3)) (S3 r3 (tok2 r2))) as [h| |]; try discriminate.
  cbn [rbind] in E |- *. injection E as E. rewrite E. reflexivity.
Qed.

(** SessionCreated *)
Definition kh1 (r3 : rnd) (tok : bytes) : bytes := header_key c (n3 r3 tok) "SessCreateHeader".
Definition kB (r3 r4 : rnd) (tok : bytes) : nctx * bytes := mix_key c (n3 r3 tok) (r_eph r4) (pub (r_eph r3)).
Definition H4 (r4 : rnd) : bytes := long_header src (r_num r4) 1 dst (be_bytes 8 0).
Definition nB (r3 r4 : rnd) (tok : bytes) : nctx :=
  mix_hash c (mix_hash c (fst (kB r3 r4 tok)) (H4 r4)) (pub (r_eph r4)).
Definition S4 (r3 r4 : rnd) (tok : bytes) : bytes :=
  seal_with c (snd (kB r3 r4 tok)) 0 (n_h (nB r3 r4 tok))
    (date_block (r_secs r4) ++ address_block aA ++ padding_block (r_pad r4)).
Definition n4 (r3 r4 : rnd) (tok : bytes) : nctx := mix_hash c (nB r3 r4 tok) (S4 r3 r4 tok).
Definition W4 (r3 r4 : rnd) (tok : bytes) : bytes :=
  wire ks intro (kh1 r3 tok) (le_bytes 8 src) (h2_of (r_num r4) 1 [2; 2; 0])
    (le_bytes 8 dst ++ be_bytes 8 0 ++ pub (r_eph r4)) (S4 r3 r4 tok).
Lemma S4_length r3 r4 tok : length (S4 r3 r4 tok) = (31 + length (fst aA) + length (r_pad r4))%nat.
Proof using P. unfold S4. rewrite sealed_length, !app_length, date_length, padding_length, address_length. ring. Qed.
Lemma W4_length r3 r4 tok : length (W4 r3 r4 tok) = (95 + length (fst aA) + length (r_pad r4))%nat.
Proof using P.
  unfold W4. rewrite wire_length, S4_length, !app_length, h2_length, !le_bytes_length, be_bytes_length, pub_length. ring.
Qed.
Definition kh2 (r3 r4 : rnd) (tok : bytes) : bytes := header_key c (n4 r3 r4 tok) "SessionConfirmed".
Definition in2 (r3 r4 : rnd) (tok : bytes) (now : N) : in_session :=
  mkIn aA dst src intro bst (n4 r3 r4 tok) (InConfirmed (r_eph r4) (kh2 r3 r4 tok) (snd (kB r3 r4 tok)))
    (rtx_session_created (W4 r3 r4 tok) now).
Definition R3 (r3 : rnd) (tok : bytes) : bytes :=
  le_bytes 8 dst ++ xor8 (ks intro (iv2 (S3 r3 tok)) 8) (h2_of (r_num r3) 0 [2; 2; 0]) ++
  xor8 (ks intro zero_iv 48) (le_bytes 8 src ++ tok ++ pub (r_eph r3)) ++ S3 r3 tok.
Lemma on_session_request_ok r3 r4 tok token rt now : length tok = 8%nat -> rnd_ok r3 -> rnd_ok r4 ->
  on_session_request c ks (mkIn aA dst src intro bst ctx0 (InRequest token) rt) r4 now (R3 r3 tok) =
  Ok (in2 r3 r4 tok now, [W4 r3 r4 tok]).
Proof.
  intros Lt (Hn3 & Hp3 & _) (Hn4 & Hp4 & _). unfold on_session_request. cbn [in_intro in_ctx in_static in_src in_dst in_addr].
  pose proof (pub_length (r_eph r3)) as Lp.
  assert (L3 : length (le_bytes 8 src ++ tok ++ pub (r_eph r3)) = 48%nat)
    by (rewrite !app_length, le_bytes_length, Lt, Lp; reflexivity).
  pose proof (S3_length r3 tok) as LS. unfold R3. replace (ks intro zero_iv 48) with (ks intro zero_iv (length (le_bytes 8 src ++ tok ++ pub (r_eph r3)))) by (now rewrite L3).
  assert (E3 : le_bytes 8 dst ++ h2_of (r_num r3) 0 [2; 2; 0] ++ (le_bytes 8 src ++ tok ++ pub (r_eph r3)) ++ S3 r3 tok =
               H3 r3 tok ++ pub (r_eph r3) ++ S3 r3 tok) by (unfold H3; rewrite long_split; now rewrite <- !app_assoc).
  assert (LH : length (H3 r3 tok) = 32%nat) by (unfold H3; rewrite long_length, Lt; reflexivity).
  rewrite (session_long intro intro (le_bytes 8 dst) (r_num r3) 0 2 0 _ (S3 r3 tok)
            (HSessionRequest (pub (r_eph r3)) 2 (r_num r3) (le_val tok))).
  2: apply le_bytes_length. 2: exact Hn3. 2: lia.
  2: { left. split; [left; reflexivity|exact L3]. }
  2: { unfold parsed. change (0 =? 0) with true. cbv iota. rewrite E3.
       rewrite (part_app (H3 r3 tok) (pub (r_eph r3))) by assumption. do 2 f_equal.
       unfold H3. rewrite long_split, <- !app_assoc.
       replace (le_bytes 8 dst ++ h2_of (r_num r3) 0 [2; 2; 0] ++ le_bytes 8 src ++ tok ++ pub (r_eph r3) ++ S3 r3 tok)
         with ((le_bytes 8 dst ++ h2_of (r_num r3) 0 [2; 2; 0] ++ le_bytes 8 src) ++ tok ++ pub (r_eph r3) ++ S3 r3 tok)
         by (now rewrite <- !app_assoc).
       rewrite part_app; [reflexivity| |exact Lt]. rewrite !app_length, h2_length, !le_bytes_length. reflexivity. }
  cbn [rbind]. rewrite E3. rewrite slice_begin by exact LH. cbn [or_panic rbind].
  rewrite (slice_app (H3 r3 tok) (pub (r_eph r3)) (S3 r3 tok)) by (rewrite ?Lp; lia). cbn [or_panic rbind].
  rewrite !mix_key_hash, (mix_key_comm ctx0 bst (r_eph r3)). fold (kA r3).
  cbn [fst snd]. fold (nA r3 tok).
  rewrite (app_assoc (H3 r3 tok)). rewrite slice_end by (rewrite app_length, LH, Lp; reflexivity). cbn [or_panic rbind].
  unfold S3 at 1. rewrite opened. cbn [or_err rbind].
  destruct (s_parse_request c (r_secs r3) (r_pad r3) ltac:(lia)) as [bs ->].
  fold (n3 r3 tok). fold (kB r3 r4 tok). rewrite (surjective_pairing (kB r3 r4 tok)).
  fold (H4 r4). fold pub. fold (pub (r_eph r4)). fold (nB r3 r4 tok). fold (S4 r3 r4 tok).
  change (header_key c (nA r3 tok) "SessCreateHeader") with (kh1 r3 tok).
  assert (E : rbind (mask_first ks intro (kh1 r3 tok) (H4 r4 ++ pub (r_eph r4)) (S4 r3 r4 tok))
    (fun h => Ok (mask_rest ks (kh1 r3 tok) h ++ S4 r3 r4 tok)) = Ok (W4 r3 r4 tok)).
  { unfold H4. rewrite long_split.
    replace ((le_bytes 8 src ++ h2_of (r_num r4) 1 [2; 2; 0] ++ le_bytes 8 dst ++ be_bytes 8 0) ++ pub (r_eph r4))
      with (le_bytes 8 src ++ h2_of (r_num r4) 1 [2; 2; 0] ++ le_bytes 8 dst ++ be_bytes 8 0 ++ pub (r_eph r4)) by (now rewrite <- !app_assoc).
    pose proof (S4_length r3 r4 tok).
    apply (wire_built ks K); [apply le_bytes_length|apply h2_length|lia]. }
  destruct (mask_first ks intro (kh1 r3 tok) (H4 r4 ++ pub (r_eph r4)) (S4 r3 r4 tok)) as [h| |]; try discriminate.
  cbn [rbind] in E |- *. injection E as E. rewrite E. reflexivity.
Qed.

(** SessionConfirmed *)
Definition H5 : bytes := confirmed_header dst.
Definition m5 (r3 r4 : rnd) (tok : bytes) : nctx := mix_hash c (n4 r3 r4 tok) H5.
Definition SP (r3 r4 : rnd) (tok : bytes) : bytes := seal_with c (snd (kB r3 r4 tok)) 1 (n_h (m5 r3 r4 tok)) (pub ast).
Definition k5 (r3 r4 : rnd) (tok : bytes) : nctx * bytes :=
  mix_key c (mix_hash c (m5 r3 r4 tok) (SP r3 r4 tok)) ast (pub (r_eph r4)).
Definition S5 (r3 r4 : rnd) (tok : bytes) : bytes :=
  seal_with c (snd (k5 r3 r4 tok)) 0 (n_h (fst (k5 r3 r4 tok))) (info_block info).
Definition W5 (r3 r4 : rnd) (tok : bytes) : bytes :=
  xor8 (ks intro (iv1 (S5 r3 r4 tok)) 8) (le_bytes 8 dst) ++
  xor8 (ks (kh2 r3 r4 tok) (iv2 (S5 r3 r4 tok)) 8) (h2_of 0 2 [1; 0; 0]) ++ SP r3 r4 tok ++ S5 r3 r4 tok.
Lemma SP_length r3 r4 tok : length (SP r3 r4 tok) = 48%nat.
Proof using P. unfold SP. rewrite sealed_length, pub_length. reflexivity. Qed.
Lemma S5_length r3 r4 tok : length (S5 r3 r4 tok) = (21 + length info)%nat.
Proof using P. unfold S5. rewrite sealed_length, info_length. ring. Qed.
Lemma W5_length r3 r4 tok : length (W5 r3 r4 tok) = (85 + length info)%nat.
Proof using P. unfold W5. rewrite !app_length, !xor8_length, le_bytes_length, h2_length, SP_length, S5_length. ring. Qed.
Definition out3 (aB : addr) (router : bytes) (r3 r4 : rnd) (tok : bytes) (now : N) : out_session :=
  mkOut aB dst src intro router (fst (k5 r3 r4 tok)) OutAck (rtx_session_confirmed (W5 r3 r4 tok) now).
Definition R4 (r3 r4 : rnd) (tok : bytes) : bytes :=
  le_bytes 8 src ++ xor8 (ks (kh1 r3 tok) (iv2 (S4 r3 r4 tok)) 8) (h2_of (r_num r4) 1 [2; 2; 0]) ++
  xor8 (ks (kh1 r3 tok) zero_iv 48) (le_bytes 8 dst ++ be_bytes 8 0 ++ pub (r_eph r4)) ++ S4 r3 r4 tok.
Lemma on_session_created_ok aB router r3 r4 tok rt now : rnd_ok r4 -> (3 <= length info)%nat ->
  on_session_created c ks (mkOut aB dst src intro router (n3 r3 tok) (OutCreated (r_eph r3) ast info) rt)
    (r_eph r3) ast info now (R4 r3 r4 tok) =
  Ok (out3 aB router r3 r4 tok now, [W5 r3 r4 tok]).
Proof.
  intros (Hn4 & Hp4 & _) Hi. unfold on_session_created. cbn [ou_intro ou_ctx ou_src ou_dst ou_addr ou_router].
  pose proof (pub_length (r_eph r4)) as Lp.
  assert (L3 : length (le_bytes 8 dst ++ be_bytes 8 0 ++ pub (r_eph r4)) = 48%nat)
    by (rewrite !app_length, le_bytes_length, be_bytes_length, Lp; reflexivity).
  pose proof (S4_length r3 r4 tok) as LS. unfold R4. replace (ks (kh1 r3 tok) zero_iv 48) with (ks (kh1 r3 tok) zero_iv (length (le_bytes 8 dst ++ be_bytes 8 0 ++ pub (r_eph r4)))) by (now rewrite L3).
  assert (E3 : le_bytes 8 src ++ h2_of (r_num r4) 1 [2; 2; 0] ++ (le_bytes 8 dst ++ be_bytes 8 0 ++ pub (r_eph r4)) ++ S4 r3 r4 tok =
               H4 r4 ++ pub (r_eph r4) ++ S4 r3 r4 tok) by (unfold H4; rewrite long_split; now rewrite <- !app_assoc).
  assert (LH : length (H4 r4) = 32%nat) by (unfold H4; rewrite long_length, be_bytes_length; reflexivity).
  fold (kh1 r3 tok).
  rewrite (session_long intro (kh1 r3 tok) (le_bytes 8 src) (r_num r4) 1 2 0 _ (S4 r3 r4 tok)
            (HSessionCreated (pub (r_eph r4)) 2 (r_num r4))).
  2: apply le_bytes_length. 2: exact Hn4. 2: lia.
  2: { left. split; [right; left; reflexivity|exact L3]. }
  2: { unfold parsed. change (1 =? 0) with false. change (1 =? 1) with true. cbv iota. rewrite E3.
       rewrite (part_app (H4 r4) (pub (r_eph r4))) by assumption. reflexivity. }
  cbn [rbind]. rewrite E3. rewrite slice_begin by exact LH. cbn [or_panic rbind].
  rewrite (slice_app (H4 r4) (pub (r_eph r4)) (S4 r3 r4 tok)) by (rewrite ?Lp; lia). cbn [or_panic rbind].
  rewrite !mix_key_hash, (mix_key_comm (n3 r3 tok) (r_eph r3) (r_eph r4)). fold (kB r3 r4 tok).
  cbn [fst snd]. fold (nB r3 r4 tok).
  rewrite (app_assoc (H4 r4)). rewrite slice_end by (rewrite app_length, LH, Lp; reflexivity). cbn [or_panic rbind].
  unfold S4 at 1. rewrite opened. cbn [or_err rbind].
  fold (n4 r3 r4 tok). fold (kh2 r3 r4 tok). fold H5. fold (m5 r3 r4 tok). fold pub. fold (pub ast). fold (SP r3 r4 tok).
  fold (k5 r3 r4 tok). rewrite (surjective_pairing (k5 r3 r4 tok)). fold (S5 r3 r4 tok).
  assert (E : mask_first ks intro (kh2 r3 r4 tok) H5 (S5 r3 r4 tok) =
              Ok (xor8 (ks intro (iv1 (S5 r3 r4 tok)) 8) (le_bytes 8 dst) ++
                  xor8 (ks (kh2 r3 r4 tok) (iv2 (S5 r3 r4 tok)) 8) (h2_of 0 2 [1; 0; 0]) ++ [])).
  { pose proof (S5_length r3 r4 tok).
    replace H5 with (le_bytes 8 dst ++ h2_of 0 2 [1; 0; 0] ++ []) by (rewrite app_nil_r; reflexivity).
    apply (build_wire ks K); [apply le_bytes_length|apply h2_length|lia]. }
  rewrite E, app_nil_r. cbn [rbind]. unfold out3, W5. rewrite <- !app_assoc. reflexivity.
Qed.

(** The accepting side's last step. *)
Lemma s_info_step i r : N.of_nat (length i) <= 65533 -> parse_info c i = Some r ->
  s_parse e (info_block i) = Some [SRouterInfo r].
Proof.
  intros Hl Hr. unfold s_parse. cbn [s_blocks].
  assert (E : s_block e (info_block i) = Some (SRouterInfo r, [])).
  { unfold s_block, info_block. cbn [app].
    rewrite (bind_step _ _ _ _ _ (be_uint1_cons _ _)).
    change (2 =? 0) with false. change (2 =? 1) with false. change (2 =? 2) with true. cbv iota. unfold s_router_info.
    erewrite bind_step by (apply be2_app; unfold len; lia).
    rewrite guard_step by (unfold len; destruct (N.eqb_spec (2 + N.of_nat (length i)) 0); [lia|reflexivity]).
    cbn [app]. rewrite (bind_step _ _ _ _ _ (be_uint1_cons _ _)).
    rewrite (bind_step _ _ _ _ _ (be_uint1_cons _ _)).
    unfold len. destruct (N.eqb_spec (2 + N.of_nat (length i)) 1); [lia|].
    rewrite (bind_step _ _ _ _ _ (take_all (N.to_nat (2 + N.of_nat (length i) - 2)) i ltac:(lia))).
    rewrite guard_step by reflexivity.
    unfold parse_info in Hr. fold e in Hr. destruct (parse_rinfo e i) as [[r' q]|]; [|discriminate]. injection Hr as ->. reflexivity. }
  rewrite E. reflexivity.
Qed.
Definition ackp : bytes := data_payload None (Some (0, 0, None)).
Definition dkeys (r3 r4 : rnd) (tok : bytes) := data_keys c (fst (k5 r3 r4 tok)).
Definition dab (r3 r4 : rnd) (tok : bytes) : bytes * bytes := direction_keys c (snd (fst (dkeys r3 r4 tok))).
Definition dba (r3 r4 : rnd) (tok : bytes) : bytes * bytes := direction_keys c (snd (dkeys r3 r4 tok)).
Definition R5 (r3 r4 : rnd) (tok : bytes) : bytes :=
  le_bytes 8 dst ++ xor8 (ks (kh2 r3 r4 tok) (iv2 (S5 r3 r4 tok)) 8) (h2_of 0 2 [1; 0; 0]) ++ SP r3 r4 tok ++ S5 r3 r4 tok.
Lemma on_session_confirmed_ok r3 r4 tok rt r introA : (3 <= length info)%nat -> N.of_nat (length info) <= 65533 ->
  parse_info c info = Some r -> ssu2_intro_key r = Some introA ->
  exists ack,
    build_packet (session_crypt c) (fun k iv => ks k iv 8%nat)
      (Ssu2Model.mkKeys introA (fst (dba r3 r4 tok)) (snd (dba r3 r4 tok))) src 0 ackp = Some ack /\
    on_session_confirmed c ks
      (mkIn aA dst src intro bst (n4 r3 r4 tok) (InConfirmed (r_eph r4) (kh2 r3 r4 tok) (snd (kB r3 r4 tok))) rt)
      (r_eph r4) (kh2 r3 r4 tok) (snd (kB r3 r4 tok)) (R5 r3 r4 tok) =
    Ok (NewInbound (mkSctx aA src introA (dab r3 r4 tok) (dba r3 r4 tok) (ri_hash (rf_identity r))) ack aA).
Proof.
  intros Hi Hl Hr Hk. pose proof (SP_length r3 r4 tok) as LP. pose proof (S5_length r3 r4 tok) as LS.
  assert (Hack : exists ack, build_packet (session_crypt c) (fun k iv => ks k iv 8%nat)
      (Ssu2Model.mkKeys introA (fst (dba r3 r4 tok)) (snd (dba r3 r4 tok))) src 0 ackp = Some ack).
  { unfold build_packet. cbn [seal session_crypt].
    match goal with |- context [(length ?s <? 24)%nat] => set (z := s) end.
    assert (Lz : length z = 24%nat) by (unfold z; rewrite (p_seal_len c P); reflexivity).
    destruct (Nat.ltb_spec (length z) 24); [lia|]. eauto. }
  destruct Hack as [ack Hack]. exists ack. split; [exact Hack|].
  unfold on_session_confirmed. cbn [in_intro in_ctx in_src in_addr]. unfold R5.
  rewrite (session_confirmed intro (kh2 r3 r4 tok) (le_bytes 8 dst) 0 [1; 0; 0] (SP r3 r4 tok) (S5 r3 r4 tok));
    [|apply le_bytes_length|reflexivity|lia|reflexivity].
  cbn [rbind]. change (negb (0 =? 0)) with false. cbv iota.
  assert (E5 : le_bytes 8 dst ++ h2_of 0 2 [1; 0; 0] ++ SP r3 r4 tok ++ S5 r3 r4 tok = H5 ++ SP r3 r4 tok ++ S5 r3 r4 tok)
    by (unfold H5, confirmed_header, h2_of; cbn [app]; now rewrite <- !app_assoc).
  assert (LH : length H5 = 16%nat) by (unfold H5, confirmed_header; rewrite !app_length, le_bytes_length, be_bytes_length; reflexivity).
  rewrite E5. rewrite slice_begin by exact LH. cbn [or_panic rbind].
  rewrite (slice_app H5 (SP r3 r4 tok) (S5 r3 r4 tok)) by (rewrite ?LP; lia). cbn [or_panic rbind].
  fold (m5 r3 r4 tok). unfold SP at 1. rewrite opened. cbn [or_err rbind].
  rewrite public_from_ok by apply pub_length. cbn [or_panic rbind].
  rewrite (mix_key_comm (mix_hash c (m5 r3 r4 tok) (SP r3 r4 tok)) (r_eph r4) ast).
  fold (k5 r3 r4 tok). rewrite (surjective_pairing (k5 r3 r4 tok)).
  rewrite (app_assoc H5). rewrite slice_end by (rewrite app_length, LH, LP; reflexivity). cbn [or_panic rbind].
  unfold S5 at 1. rewrite opened. cbn [or_err rbind]. fold e.
  rewrite (s_info_step info r Hl Hr). cbn [or_err rbind find_info]. rewrite Hk. cbn [or_err rbind].
  fold (dkeys r3 r4 tok). rewrite (surjective_pairing (dkeys r3 r4 tok)), (surjective_pairing (fst (dkeys r3 r4 tok))).
  fold (dab r3 r4 tok). fold (dba r3 r4 tok). rewrite (surjective_pairing (dab r3 r4 tok)), (surjective_pairing (dba r3 r4 tok)).
  cbn [fst snd] in Hack |- *. fold ackp. rewrite Hack. reflexivity.
Qed.
Lemma on_data_ok aB router r3 r4 tok rt :
  on_data c (mkOut aB dst src intro router (fst (k5 r3 r4 tok)) OutAck rt) =
  NewOutbound (mkSctx aB dst intro (dba r3 r4 tok) (dab r3 r4 tok) router).
Proof.
  unfold on_data. cbn [ou_ctx ou_addr ou_dst ou_intro ou_router].
  fold (dkeys r3 r4 tok). rewrite (surjective_pairing (dkeys r3 r4 tok)), (surjective_pairing (fst (dkeys r3 r4 tok))). reflexivity.
Qed.
End Run.
End Proofs.
