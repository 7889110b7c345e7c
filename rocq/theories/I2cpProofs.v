From Coq Require Import List NArith Bool Lia Arith ZArith ZifyBool ZifyNat ZifyN.
From Verif Require Import ListUtil Bytes PrimModel PrimSpec PrimProofs EncModel EncProofs
  I2cpModel I2cpSpec.
Import ListNotations.
Open Scope N_scope.

(** ** Decoding requests *)
Lemma wire_options_parse o r : map_ok o -> N.of_nat (map_size o) < 65536 ->
  parse_multi (wire_options o ++ r) = Some (o, r).
Proof.
  intros Hm Hs. unfold wire_options. rewrite <- app_assoc.
  rewrite <- (parse_multi_ser o r Hm Hs). unfold len. now rewrite map_size_ser.
Qed.

Lemma be6_app n r : n < 281474976710656 -> be_uint 6 (be_bytes 6 n ++ r) = Some (n, r).
Proof. intros. apply be_uint_app. change (256 ^ N.of_nat 6) with 281474976710656. lia. Qed.

Lemma many_priv keys r : Forall (fun k => length k = 32%nat) keys ->
  many (length keys) parse_priv
    (flat_map (fun k => be_bytes 2 4 ++ be_bytes 2 32 ++ k) keys ++ r) = Some (keys, r).
Proof.
  intros H. apply (many_app parse_priv (fun k => be_bytes 2 4 ++ be_bytes 2 32 ++ k)
    (fun k => length k = 32%nat)); auto.
  intros k q Hk. unfold parse_priv. rewrite <- !app_assoc. pnum. pnum.
  pstep ltac:(apply take_app; lia). reflexivity.
Qed.

Lemma payload_params p src dst pr : src < 65536 -> dst < 65536 -> payload_has p src dst pr ->
  payload_parameters p = Some (src, dst, pr).
Proof.
  intros Hs Hd (a & f & c & Ha & ->). unfold payload_parameters.
  destruct a as [|a0 [|a1 [|a2 [|a3 [|? ?]]]]]; try discriminate.
  assert (Es : exists s0 s1, be_bytes 2 src = [s0; s1] /\ be_val [s0; s1] = src).
  { assert (L := be_bytes_length 2 src). assert (V := be_val_bytes 2 src).
    rewrite N.mod_small in V by (change (256 ^ N.of_nat 2) with 65536; lia).
    destruct (be_bytes 2 src) as [|s0 [|s1 [|? ?]]]; try discriminate. eauto. }
  assert (Ed : exists s0 s1, be_bytes 2 dst = [s0; s1] /\ be_val [s0; s1] = dst).
  { assert (L := be_bytes_length 2 dst). assert (V := be_val_bytes 2 dst).
    rewrite N.mod_small in V by (change (256 ^ N.of_nat 2) with 65536; lia).
    destruct (be_bytes 2 dst) as [|s0 [|s1 [|? ?]]]; try discriminate. eauto. }
  destruct Es as (s0 & s1 & Es & Vs), Ed as (d0 & d1 & Ed & Vd). rewrite Es, Ed.
  cbn [app length Nat.ltb Nat.leb nth skipn firstn].
  rewrite Vs, Vd. now destruct pr.
Qed.

Lemma requests_decoded e f m : requests e f m -> i2cp_parse e (fst f) (snd f) = Some m.
Proof.
  intros H. destruct H; unfold i2cp_parse.
  - change (parsed (parse_get_date (ser_str version ++ wire_options o)) = Some (MGetDate version o)).
    unfold parse_get_date. rewrite <- (app_nil_r (wire_options o)).
    pstep ltac:(now apply parse_ser_str). pstep ltac:(now apply wire_options_parse). reflexivity.
  - change (parsed (parse_set_date (be_bytes 8 date ++ ser_str version)) = Some (MSetDate date version)).
    unfold parse_set_date. rewrite <- (app_nil_r (ser_str version)).
    change (2 ^ 64) with 18446744073709551616 in *. pnum.
    pstep ltac:(now apply parse_ser_str). reflexivity.
  - reflexivity.
  - change (parsed (parse_destroy_session (be_bytes 2 session)) = Some (MDestroySession session)).
    unfold parse_destroy_session. rewrite <- (app_nil_r (be_bytes 2 session)). pnum. reflexivity.
  - change (parsed (parse_create_session e (create_session_body d o date ++ sg))
            = Some (MCreateSession d date o)).
    assert (F : firstn (length (create_session_body d o date ++ sg) - 64)
                  (create_session_body d o date ++ sg) = create_session_body d o date).
    { apply firstn_app_n. rewrite app_length. lia. }
    unfold parse_create_session. rewrite F. clear F.
    unfold create_session_body in *. rewrite <- !app_assoc.
    change (2 ^ 64) with 18446744073709551616 in *.
    pstep ltac:(apply H). pstep ltac:(now apply wire_options_parse). pnum.
    rewrite <- (app_nil_r sg). pstep ltac:(now apply take_app).
    rewrite guard_step by assumption.
    cbn [ret parsed]. now rewrite into_hashmap_sorted.
  - change (2 ^ 32) with 4294967296 in *.
    assert (G : parse_host_lookup
        (be_bytes 2 session ++ be_bytes 4 request ++ be_bytes 4 timeout ++
         match k with Hash h => [0] ++ h | HostName n => [1] ++ ser_str n end)
        = Some (MHostLookup session request timeout k, [])).
    { unfold parse_host_lookup. pnum. pnum. pnum. destruct k as [n|h].
      - change ([1] ++ ser_str n) with (be_bytes 1 1 ++ ser_str n). pnum.
        change (1 =? 0) with false. change (1 =? 1) with true. cbv iota.
        rewrite <- (app_nil_r (ser_str n)). pstep ltac:(now apply parse_ser_str). reflexivity.
      - change ([0] ++ h) with (be_bytes 1 0 ++ h). pnum.
        change (0 =? 0) with true. cbv iota.
        pstep ltac:(now apply take_all). reflexivity. }
    cbn [fst snd host_lookup_frame].
    change (parsed (parse_host_lookup
        (be_bytes 2 session ++ be_bytes 4 request ++ be_bytes 4 timeout ++
         match k with Hash h => [0] ++ h | HostName n => [1] ++ ser_str n end))
        = Some (MHostLookup session request timeout k)).
    now rewrite G.
  - set (body := be_bytes 2 session ++ [3] ++ ls ++ be_bytes 1 (N.of_nat (length keys)) ++
       flat_map (fun k => be_bytes 2 4 ++ be_bytes 2 32 ++ k) keys).
    change (parsed (parse_create_leaseset2 e body)
      = Some (MCreateLeaseSet2 session (d_hash (h_dest (ls_header' x))) ls keys)).
    unfold parse_create_leaseset2.
    assert (Sl : forall r,
      r = be_bytes 1 (N.of_nat (length keys)) ++
       flat_map (fun k => be_bytes 2 4 ++ be_bytes 2 32 ++ k) keys ->
      slice 3 (length body - length r) body = ls).
    { intros r Hr. unfold body. rewrite <- Hr.
      rewrite app_assoc. apply slice_mid; [reflexivity|]. rewrite !app_length. cbn [length].
      rewrite be_bytes_length. lia. }
    unfold body at 3. pnum. change ([3] ++ ls ++ ?t) with (be_bytes 1 3 ++ ls ++ t). pnum.
    change (3 =? 3) with true. cbv iota.
    pstep ltac:(apply H0). pnum.
    rewrite Nat2N.id.
    rewrite <- (app_nil_r (flat_map (fun k => be_bytes 2 4 ++ be_bytes 2 32 ++ k) keys)).
    pstep ltac:(now apply many_priv). cbn [ret parsed].
    rewrite Sl; [reflexivity|]. now rewrite app_nil_r.
  - change (parsed (parse_send_message_expires e (be_bytes 2 session ++ ser_dest d ++
       be_bytes 4 (N.of_nat (length payload)) ++ payload ++
       be_bytes 4 nonce ++ be_bytes 2 options ++ be_bytes 6 expires))
      = Some (MSendMessageExpires session d (src, dst, p) payload nonce options expires)).
    change (2 ^ 32) with 4294967296 in *. change (2 ^ 48) with 281474976710656 in *.
    unfold parse_send_message_expires. pnum. pstep ltac:(apply H0). pnum. rewrite Nat2N.id.
    pstep ltac:(now apply take_app). pnum. pnum.
    rewrite <- (app_nil_r (be_bytes 6 expires)). pstep ltac:(apply be6_app; lia).
    rewrite (payload_params _ _ _ _ H2 H3 H4). reflexivity.
Qed.

(** ** Reading: refinement to cutting the byte stream into frames *)
Definition deliver (e : ext) (f : N * list N) : list i2cp_msg :=
  match i2cp_parse e (fst f) (snd f) with Some m => [m] | None => [] end.

(** [held r p]: the reader has consumed [p] since the last frame boundary. *)
Definition held (r : i2cp_reader) (p : bytes) : Prop :=
  length (rd_buf r) = i2cp_buffer /\ bytes_ok p /\
  match rd_state r with
  | RHeader off => (off <= 4)%nat /\ length p = off /\ firstn off (rd_buf r) = p
  | RFrame size ty off =>
      exists q, p = be_bytes 4 size ++ [ty] ++ q /\ 0 < size < 2 ^ 32 /\
        length q = off /\ (off < N.to_nat size)%nat /\ firstn off (rd_buf r) = q
  end.

Lemma app_inj_len {A} (a b c d : list A) :
  length a = length c -> a ++ b = c ++ d -> a = c /\ b = d.
Proof.
  revert c. induction a; intros [|x c] Hl H; cbn in *; try discriminate; [easy|].
  injection H as -> H. injection Hl as Hl. destruct (IHa c Hl H) as [-> ->]. easy.
Qed.
Lemma put_at_length at_ new buf : (at_ + length new <= length buf)%nat ->
  length (put_at at_ new buf) = length buf.
Proof.
  intros. unfold put_at. rewrite !app_length, firstn_length, skipn_length. lia.
Qed.
Lemma put_at_firstn at_ new buf p : (at_ + length new <= length buf)%nat ->
  firstn at_ buf = p -> firstn (at_ + length new) (put_at at_ new buf) = p ++ new.
Proof.
  intros Hl <-. unfold put_at. rewrite app_assoc. apply firstn_app_n.
  rewrite app_length, firstn_length. lia.
Qed.

Lemma buffer_N : N.of_nat i2cp_buffer = 65535.
Proof. unfold i2cp_buffer. lia. Qed.
Global Opaque i2cp_buffer.

Lemma held_new : held i2cp_reader_new [].
Proof.
  unfold held, i2cp_reader_new. cbn [rd_buf rd_state]. rewrite repeat_length.
  repeat split; try constructor; lia.
Qed.

Lemma be_bytes_of_val4 l : bytes_ok l -> length l = 4%nat -> be_bytes 4 (be_val l) = l.
Proof. intros H L. rewrite <- L at 1. now apply be_bytes_val. Qed.

Section WithExt.
Variable e : ext.

Lemma on_read_held r p k chunk :
  held r p -> i2cp_room r = Some k -> chunk <> [] -> (length chunk <= k)%nat ->
  bytes_ok chunk ->
  (held (fst (i2cp_on_read e r chunk)) (p ++ chunk) /\ snd (i2cp_on_read e r chunk) = []) \/
  (exists f, frame_ok f /\ p ++ chunk = frame f /\
     held (fst (i2cp_on_read e r chunk)) [] /\ snd (i2cp_on_read e r chunk) = deliver e f).
Proof.
  intros (Hb & Hp & Hs) Hk Hne Hlen Hc.
  assert (HB := buffer_N).
  assert (Hcl : (0 < length chunk)%nat) by (destruct chunk; [easy|cbn; lia]).
  assert (Hpc : bytes_ok (p ++ chunk)) by (apply bytes_ok_app; split; assumption).
  unfold i2cp_on_read, i2cp_room in *. destruct (rd_state r) as [off|size ty off].
  - destruct Hs as (Ho & Hpl & Hf). assert (k = (5 - off)%nat) as -> by congruence. clear Hk.
    assert (Hfit : (off + length chunk <= length (rd_buf r))%nat) by lia.
    assert (L := put_at_length _ _ _ Hfit). assert (F := put_at_firstn _ _ _ _ Hfit Hf).
    set (buf := put_at off chunk (rd_buf r)) in *.
    destruct (Nat.eqb_spec (off + length chunk) 5) as [E|E]; cbn [negb].
    + rewrite E in F.
      assert (Hl5 : length (p ++ chunk) = 5%nat) by (rewrite app_length; lia).
      assert (F4 : firstn 4 buf = firstn 4 (p ++ chunk)).
      { rewrite <- F, firstn_firstn. reflexivity. }
      assert (N4 : nth 4 buf 0 = nth 4 (p ++ chunk) 0).
      { rewrite <- F. rewrite <- (firstn_skipn 5 buf) at 1. rewrite app_nth1; [reflexivity|].
        rewrite firstn_length. lia. }
      assert (S5 : p ++ chunk = firstn 4 (p ++ chunk) ++ [nth 4 (p ++ chunk) 0]).
      { clear - Hl5. destruct (p ++ chunk) as [|a [|b [|c [|d [|x [|? ?]]]]]]; try discriminate.
        reflexivity. }
      rewrite F4, N4.
      set (h := firstn 4 (p ++ chunk)) in *. set (ty := nth 4 (p ++ chunk) 0) in *.
      assert (Hh4 : length h = 4%nat) by (unfold h; rewrite firstn_length; lia).
      assert (Hhok : bytes_ok h /\ byte_ok ty).
      { rewrite S5 in Hpc. apply bytes_ok_app in Hpc as [A B]. split; [exact A|exact (Forall_inv B)]. }
      destruct Hhok as [Hhok Htok].
      assert (Hlt := be_val_lt h Hhok). rewrite Hh4 in Hlt. change (256 ^ N.of_nat 4) with (2 ^ 32) in Hlt.
      destruct (N.eqb_spec (be_val h) 0) as [Z|Z].
      * right. exists (ty, []). cbn [fst snd]. unfold frame_ok. cbn [fst snd length].
        split; [split; [exact Htok|lia]|]. split.
        { unfold frame. cbn [fst snd length]. rewrite S5.
          rewrite app_nil_r. f_equal. rewrite <- (be_bytes_of_val4 h Hhok Hh4), Z. reflexivity. }
        split; [|reflexivity].
        unfold held. cbn [rd_buf rd_state]. repeat split; [lia|constructor|lia].
      * left. cbn [fst snd]. split; [|reflexivity]. unfold held. cbn [rd_buf rd_state].
        split; [lia|]. split; [exact Hpc|]. exists []. rewrite (be_bytes_of_val4 h Hhok Hh4).
        repeat split; [exact S5|lia|exact Hlt|lia].
    + left. cbn [fst snd]. split; [|reflexivity]. unfold held. cbn [rd_buf rd_state].
      split; [lia|]. split; [exact Hpc|]. split; [lia|]. split; [|exact F].
      rewrite app_length; lia.
  - destruct Hs as (q & Hpq & Hsz & Hql & Ho & Hf).
    destruct (N.ltb_spec 65535 size) as [|Hs']; [discriminate Hk|].
    assert (k = (N.to_nat size - off)%nat) as -> by congruence. clear Hk.
    assert (Hfit : (off + length chunk <= length (rd_buf r))%nat) by lia.
    assert (L := put_at_length _ _ _ Hfit). assert (F := put_at_firstn _ _ _ _ Hfit Hf).
    set (buf := put_at off chunk (rd_buf r)) in *.
    destruct (Nat.ltb_spec (off + length chunk) (N.to_nat size)) as [E|E].
    + left. cbn [fst snd]. split; [|reflexivity]. unfold held. cbn [rd_buf rd_state].
      split; [lia|]. split; [exact Hpc|]. exists (q ++ chunk).
      split; [now rewrite Hpq, <- !app_assoc|]. split; [exact Hsz|].
      split; [rewrite app_length; lia|]. split; [lia|exact F].
    + right. assert (Es : N.to_nat size = (off + length chunk)%nat) by lia.
      rewrite Es, F. exists (ty, q ++ chunk). cbn [fst snd].
      assert (Ln : N.of_nat (length (q ++ chunk)) = size) by (rewrite app_length; lia).
      split.
      { unfold frame_ok. cbn [fst snd]. split; [|lia].
        rewrite Hpq in Hp. apply bytes_ok_app in Hp as [_ Hp]. exact (Forall_inv Hp). }
      split.
      { unfold frame. cbn [fst snd]. rewrite Ln, Hpq, <- !app_assoc. reflexivity. }
      split; [|reflexivity].
      unfold held. cbn [rd_buf rd_state]. repeat split; [lia|constructor|lia].
Qed.

Lemma reads_cut r s out r' :
  socket_reads i2cp_room (i2cp_on_read e) r s out r' ->
  forall p, held r p -> bytes_ok s ->
  exists fs p', p ++ s = flat_map frame fs ++ p' /\ Forall frame_ok fs /\
    out = flat_map (deliver e) fs /\ held r' p'.
Proof.
  induction 1 as [r|r k chunk rest out r' Hk Hne Hl H IH]; intros p Hp Hs.
  - exists [], p. rewrite app_nil_r. split; [reflexivity|]. split; [constructor|]. split; [reflexivity|exact Hp].
  - apply bytes_ok_app in Hs as [Hc Hr].
    destruct (on_read_held r p k chunk Hp Hk Hne Hl Hc) as [[Hh Ho]|(f & Hf & Hfr & Hh & Ho)].
    + destruct (IH _ Hh Hr) as (fs & p' & E & Hfs & Hout & Hh').
      exists fs, p'. rewrite app_assoc, E, Ho. split; [reflexivity|]. split; [exact Hfs|]. split; [exact Hout|exact Hh'].
    + destruct (IH _ Hh Hr) as (fs & p' & E & Hfs & Hout & Hh'). cbn [app] in E.
      exists (f :: fs), p'. rewrite app_assoc, Hfr, E, Ho, Hout. cbn [flat_map].
      rewrite <- app_assoc. split; [reflexivity|]. split; [constructor; assumption|].
      split; [reflexivity|exact Hh'].
Qed.
End WithExt.

(** ** A byte stream has at most one decomposition *)
(** No complete frame fits into [p]. *)
Definition incomplete (p : bytes) : Prop := forall f t, frame_ok f -> p <> frame f ++ t.

Lemma held_incomplete r p : held r p -> incomplete p.
Proof.
  intros (_ & Hp & H) [ty body] t [Ht Hb] E. unfold frame in E. cbn [fst snd] in *.
  destruct (rd_state r) as [off|size ty' off].
  - destruct H as (Ho & Hl & _). rewrite E, !app_length, be_bytes_length in Hl. cbn in Hl. lia.
  - destruct H as (q & Hq & Hsz & Hl & Ho & _). rewrite Hq in E.
    rewrite <- !app_assoc in E.
    apply app_inj_len in E as [E1 E2]; [|now rewrite !be_bytes_length].
    apply be_bytes_inj in E1.
    + cbn [app] in E2. injection E2 as _ E2. subst q. rewrite app_length in *. lia.
    + change (256 ^ N.of_nat 4) with (2 ^ 32). lia.
    + change (256 ^ N.of_nat 4) with 4294967296. lia.
Qed.

Lemma frame_app_inj f g a b : frame_ok f -> frame_ok g -> frame f ++ a = frame g ++ b ->
  f = g /\ a = b.
Proof.
  intros [Hf1 Hf2] [Hg1 Hg2] E. destruct f as [t1 b1], g as [t2 b2]. unfold frame in E.
  cbn [fst snd] in *. rewrite <- !app_assoc in E.
  apply app_inj_len in E as [E1 E2]; [|now rewrite !be_bytes_length].
  apply be_bytes_inj in E1; [|change (256 ^ N.of_nat 4) with 4294967296; lia..].
  cbn [app] in E2. injection E2 as -> E2. apply app_inj_len in E2 as [-> ->]; [easy|lia].
Qed.

Lemma cut_unique fs : forall gs p q,
  Forall frame_ok fs -> Forall frame_ok gs -> incomplete p -> incomplete q ->
  flat_map frame fs ++ p = flat_map frame gs ++ q -> fs = gs /\ p = q.
Proof.
  induction fs as [|f fs IH]; intros [|g gs] p q Hf Hg Hp Hq E; cbn [flat_map app] in E.
  - now subst.
  - rewrite <- app_assoc in E. inversion Hg. now apply Hp in E.
  - rewrite <- app_assoc in E. inversion Hf. symmetry in E. now apply Hq in E.
  - rewrite <- !app_assoc in E. inversion Hf; inversion Hg; subst.
    apply frame_app_inj in E as [-> E]; auto.
    destruct (IH gs p q) as [-> ->]; auto.
Qed.

Lemma incomplete_nil : incomplete [].
Proof.
  intros [ty b] t _ E. unfold frame in E. cbn [fst snd] in E.
  apply (f_equal (@length N)) in E. rewrite !app_length, be_bytes_length in E. cbn in E. lia.
Qed.

(** ** Writing *)
Definition w_rest (w : writer) : bytes :=
  match w_state w with
  | WSend off m => skipn off m ++ concat (w_pending w)
  | _ => concat (w_pending w)
  end.
Definition w_ok (w : writer) : Prop :=
  Forall (fun m => m <> []) (w_pending w) /\
  match w_state w with WSend off m => (off < length m)%nat | _ => True end.

Lemma w_iter_keeps w r :
  w_ok w -> w_state w <> WPoisoned ->
  (forall off m n, w_state w = WSend off m -> r = WrOk n -> (n <= length m - off)%nat) ->
  let '(w', out, nx) := w_iter w r in
  w_ok w' /\ out ++ w_rest w' =
    (match w_state w' with WPoisoned => out ++ w_rest w' | _ => w_rest w end) /\
  (w_state w' = WPoisoned -> out = [] /\ nx = WClose).
Proof.
  intros [Hp Hs] Hn Hr. unfold w_iter, w_rest, w_ok in *.
  destruct (w_state w) as [|off m|] eqn:E; [| |congruence].
  - destruct (w_pending w) as [|m t] eqn:Ep; cbn [w_state w_pending app].
    + repeat split; auto; discriminate.
    + inversion Hp; subst. repeat split; auto; try discriminate.
      destruct m; [easy|cbn; lia].
  - destruct r as [| |n]; cbn [w_state w_pending app]; try (repeat split; auto; discriminate).
    specialize (Hr off m n eq_refl eq_refl).
    destruct n as [|n]; cbn [w_state w_pending app]; [repeat split; auto; discriminate|].
    destruct (Nat.eqb_spec (S n + off) (length m)) as [En|En]; cbn [w_state w_pending].
    + repeat split; auto; try discriminate.
      rewrite firstn_all2; [reflexivity|]. rewrite skipn_length. lia.
    + repeat split; auto; try discriminate; [lia|].
      rewrite app_assoc. f_equal. rewrite <- (firstn_skipn (S n) (skipn off m)) at 2.
      f_equal. now rewrite skipn_add.
Qed.

Lemma w_iter_poisoned w r : w_state w = WPoisoned ->
  w_iter w r = (mkWriter (w_pending w) WPoisoned, [], WClose).
Proof. intros H. unfold w_iter. now rewrite H. Qed.

Lemma wrote_inv q o w : wrote q o w ->
  Forall (fun m => m <> []) q /\ w_ok w /\
  (w_state w <> WPoisoned -> concat q = o ++ w_rest w) /\ exists rest, concat q = o ++ rest.
Proof.
  induction 1 as [|q o w m H IH Hm|q o w r H IH Hk].
  - repeat split; try constructor. exists []. reflexivity.
  - destruct IH as (Hq & [Hp Hs] & He & rest & Hr).
    split; [apply Forall_app; split; auto|]. split.
    { split; cbn [w_send w_pending w_state]; [apply Forall_app; split; auto|exact Hs]. }
    rewrite concat_app. cbn [concat]. rewrite app_nil_r. split.
    + cbn [w_send w_state]. intros Hn. rewrite (He Hn), <- app_assoc. f_equal.
      unfold w_rest. cbn [w_send w_state w_pending]. rewrite concat_app. cbn [concat].
      rewrite app_nil_r. destruct (w_state w); now rewrite ?app_assoc.
    + exists (rest ++ m). now rewrite Hr, app_assoc.
  - destruct IH as (Hq & Hw & He & rest & Hr).
    destruct (w_iter w r) as [[w' out] nx] eqn:E. cbn [fst snd].
    destruct (w_state w) as [|off m|] eqn:Es.
    1,2: assert (K := w_iter_keeps w r Hw ltac:(rewrite Es; discriminate));
      rewrite E in K; destruct K as (Hw' & Heq & Hc);
      [intros o1 m1 n E1 ->; unfold kernel_can in Hk; rewrite E1 in Hk; exact Hk|].
    1,2: split; [exact Hq|]; split; [exact Hw'|];
      assert (Hcc := He ltac:(discriminate));
      destruct (w_state w') as [|o' m'|] eqn:Es'.
    all: try (rewrite Hcc, <- Heq, app_assoc; split; [easy|exists (w_rest w'); reflexivity]).
    1,2: destruct (Hc eq_refl) as [-> _]; rewrite app_nil_r; split; [congruence|];
      exists rest; exact Hr.
    rewrite (w_iter_poisoned w r Es) in E. injection E as <- <- <-.
    cbn [w_state]. rewrite app_nil_r. repeat split; auto; try congruence.
    + destruct Hw as [Hp _]. exact Hp.
    + exists rest. exact Hr.
Qed.

Definition w_measure (w : writer) : nat := (length (w_pending w) + length (w_rest w))%nat.

Lemma pump_idle n kernel w : idle w -> pump n kernel w = (w, []).
Proof.
  intros [Hp Hs]. revert w Hp Hs. induction n; intros w Hp Hs; [reflexivity|].
  cbn [pump]. unfold w_iter. rewrite Hs, Hp. rewrite IHn by easy.
  destruct w; cbn in *; subst. reflexivity.
Qed.

Lemma pump_drains kernel :
  takes_some kernel ->
  forall n w, w_ok w -> w_state w <> WPoisoned -> (w_measure w <= n)%nat ->
  let '(w', out) := pump n kernel w in idle w' /\ out = w_rest w.
Proof.
  intros K n. induction n; intros w Hw Hn Hm.
  - cbn [pump]. unfold w_measure in Hm. destruct Hw as [Hp Hs]. unfold idle, w_rest in *.
    destruct (w_pending w) eqn:Ep; [|cbn in Hm; lia].
    destruct (w_state w) as [|off m|] eqn:Es; [easy| |congruence].
    cbn [concat length] in Hm. rewrite app_length, skipn_length in Hm. lia.
  - cbn [pump]. assert (K0 := w_iter_keeps w (WrOk (kernel w)) Hw Hn).
    assert (K1 : forall off m, w_state w = WSend off m -> (1 <= kernel w <= length m - off)%nat).
    { intros off m Es. apply K; [exact Es|]. destruct Hw as [_ Hs]. now rewrite Es in Hs. }
    destruct (w_iter w (WrOk (kernel w))) as [[w' out] nx] eqn:E.
    destruct K0 as (Hw' & Heq & Hc).
    { intros o1 m1 n1 E1 E2. injection E2 as <-. now apply K1. }
    assert (Hn' : w_state w' <> WPoisoned).
    { unfold w_iter in E. destruct (w_state w) as [|off m|]; [| |congruence].
      - destruct (w_pending w); injection E as <- _ _; discriminate.
      - specialize (K1 off m eq_refl). destruct (kernel w); [lia|].
        destruct (_ =? _)%nat; injection E as <- _ _; discriminate. }
    assert (Hrest : out ++ w_rest w' = w_rest w).
    { destruct (w_state w'); congruence. }
    assert (Hcase : idle w' /\ idle w /\ out = [] \/ (w_measure w' <= n)%nat).
    { unfold w_iter in E. unfold w_measure in *. destruct (w_state w) as [|off m|] eqn:Es; [| |congruence].
      - destruct (w_pending w) as [|m t] eqn:Ep.
        + injection E as <- <- _. left. unfold idle. cbn. rewrite Ep, Es. easy.
        + injection E as <- <- _. right. rewrite <- Hrest in Hm. cbn [app] in Hm.
          cbn [w_pending length] in *. lia.
      - right. rewrite <- Hrest, app_length in Hm. specialize (K1 off m eq_refl).
        assert (L : length out = kernel w /\ w_pending w' = w_pending w).
        { destruct Hw as [_ Hs]. rewrite Es in Hs.
          destruct (kernel w) as [|x]; [lia|].
          destruct (_ =? _)%nat; apply pair_equal_spec in E as [E _];
            apply pair_equal_spec in E as [<- <-]; cbn [w_pending];
            (split; [|reflexivity]); rewrite firstn_length, skipn_length; lia. }
        destruct L as [L1 L2]. rewrite L2. lia. }
    destruct Hcase as [(I' & I & ->)|Hm'].
    + rewrite pump_idle by assumption. split; [assumption|].
      rewrite <- Hrest. destruct I' as [P S]. unfold w_rest. now rewrite S, P.
    + specialize (IHn w' Hw' Hn' Hm'). destruct (pump n kernel w') as [w'' out'].
      destruct IHn as [I ->]. now split.
Qed.

Lemma writing_all_inv b left out c : writing_all b left out c -> b = out ++ left.
Proof.
  induction 1 as [|left out r left' w nx H IH Hr E]; [reflexivity|].
  unfold write_all_iter in E. destruct left as [|x l]; [discriminate|].
  destruct r as [| |n]; injection E as <- <- <-; rewrite ?app_nil_r; auto.
  rewrite IH, <- app_assoc. now rewrite firstn_skipn.
Qed.

(** Executing a given segmentation, for the examples. *)
Section Feed.
Context {R M : Type} (room : R -> option nat) (on_read : R -> list N -> R * list M).
Fixpoint feed (r : R) (chunks : list (list N)) : option (R * list M) :=
  match chunks with
  | [] => Some (r, [])
  | c :: t =>
      match room r with
      | Some k =>
          if (1 <=? length c)%nat && (length c <=? k)%nat then
            match feed (fst (on_read r c)) t with
            | Some (r', out) => Some (r', snd (on_read r c) ++ out)
            | None => None
            end
          else None
      | None => None
      end
  end.
Lemma feed_reads chunks : forall r r' out, feed r chunks = Some (r', out) ->
  socket_reads room on_read r (concat chunks) out r'.
Proof.
  induction chunks as [|c t IH]; intros r r' out H; cbn [feed concat] in *.
  - injection H as <- <-. constructor.
  - destruct (room r) as [k|] eqn:Ek; [|discriminate].
    destruct ((1 <=? length c)%nat && (length c <=? k)%nat) eqn:E; [|discriminate].
    destruct (feed (fst (on_read r c)) t) as [[r1 o1]|] eqn:Ef; [|discriminate].
    injection H as <- <-. apply reads_some with k; auto; [|lia].
    intros ->. cbn in E. discriminate.
Qed.
End Feed.
