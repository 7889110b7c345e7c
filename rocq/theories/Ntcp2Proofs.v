(** Proofs about the NTCP2 session model. *)
From Coq Require Import List NArith Bool Lia Arith ZifyBool ZifyNat ZifyN.
From Verif Require Import ListUtil Bytes PrimModel I2npModel I2npSpec I2npProofs I2cpModel I2cpSpec I2cpProofs
  Ntcp2Model Ntcp2Spec.
Import ListNotations.
Open Scope N_scope.

Lemma land_small a : N.land a 65535 < 65536.
Proof. change 65535 with (N.ones 16). rewrite N.land_ones. apply N.mod_lt. discriminate. Qed.

Lemma lxor_small a b : a < 65536 -> b < 65536 -> N.lxor a b < 65536.
Proof.
  intros Ha Hb. change 65536 with (2 ^ 16) in *.
  rewrite <- (N.mod_small a (2 ^ 16)), <- (N.mod_small b (2 ^ 16)) by assumption.
  rewrite <- !N.land_ones.
  assert (N.lxor (N.land a (N.ones 16)) (N.land b (N.ones 16)) =
          N.land (N.lxor a b) (N.ones 16)) as ->.
  { apply N.bits_inj. intros i. rewrite N.lxor_spec, !N.land_spec, N.lxor_spec.
    now destruct (N.testbit a i), (N.testbit b i), (N.testbit (N.ones 16) i). }
  rewrite N.land_ones. apply N.mod_lt. discriminate.
Qed.

Lemma mask_twice a m : N.lxor (N.lxor a m) m = a.
Proof. now rewrite N.lxor_assoc, N.lxor_nilpotent, N.lxor_0_r. Qed.

Lemma be_val2 n : n < 65536 -> be_val (be_bytes 2 n) = n.
Proof. intros H. rewrite be_val_bytes. apply N.mod_small. exact H. Qed.

Lemma Some_inj {A} (a b : A) : Some a = Some b -> a = b.
Proof. congruence. Qed.

(** ** Nonces *)
Lemma nonce_bytes_inj a b : a < 2 ^ 64 -> b < 2 ^ 64 -> nonce_bytes a = nonce_bytes b -> a = b.
Proof.
  intros Ha Hb H. unfold nonce_bytes, le_bytes in H. apply app_inv_head in H.
  assert (rev (rev (be_bytes 8 a)) = rev (rev (be_bytes 8 b))) as H1 by now rewrite H.
  rewrite !rev_involutive in H1. apply be_bytes_inj in H1; assumption.
Qed.

Section WithCrypt.
Variable c : ncrypt.
Hypothesis Haead : aead_ok c.

(** ** Blocks *)
Lemma parse_nblock_nonempty i b r : parse_nblock i = Some (b, r) -> (length r < length i)%nat.
Proof.
  intros H. unfold parse_nblock in H.
  apply bind_inv in H as (t & r1 & H1 & H2). apply be_uint_length in H1.
  assert (length r <= length r1)%nat; [|lia].
  assert (forall (p : parser nblock), consumes p -> p r1 = Some (b, r) -> (length r <= length r1)%nat)
    as Hc.
  { intros p Hp Hp'. destruct (Hp _ _ _ Hp') as [z Hz]. rewrite Hz, app_length. lia. }
  assert (forall a s, consumes (skip_over a s)) as Hskip.
  { intros a s. unfold skip_over. destruct (a <? s).
    - apply bind_consumes; [apply take_consumes|intros; apply ret_consumes].
    - apply ret_consumes. }
  assert (forall x, consumes (guard x)) as Hguard.
  { intros x j u s Hg. unfold guard in Hg. destruct x; [|discriminate]. injection Hg as <- <-.
    now exists []. }
  repeat match type of H2 with (if ?x then _ else _) _ = _ => destruct x end;
    try discriminate H2;
    (eapply Hc; [|exact H2];
     unfold parse_date_time, parse_options, parse_nrouter_info, parse_ni2np, parse_termination,
       parse_npadding, parse_short, opt;
     repeat first [ apply bind_consumes; [|intros]
                  | apply be_uint_consumes | apply take_consumes | apply ret_consumes
                  | apply Hskip | apply Hguard ]).
  all: try (intros j u s Hj; destruct (mtype_of _) in Hj; [|discriminate];
            injection Hj as <- <-; now exists []).
Qed.

Lemma parse_wire_block b rest : block_ok b -> parse_nblock (wire_block b ++ rest) = Some (b, rest).
Proof.
  intros Hb. unfold parse_nblock.
  destruct b as [t|a1 a2 a3 a4 td rd tl rl|f info|m|v rs|p]; cbn [wire_block block_ok] in *;
    unfold ser_block; rewrite <- !app_assoc; cbn [app];
    (pstep ltac:(apply be_uint1_cons)).
  - change (0 =? 0) with true. cbv iota. unfold parse_date_time.
    rewrite be_bytes_length. pstep ltac:(apply be2_app; reflexivity).
    pstep ltac:(apply be4_app; exact Hb). reflexivity.
  - change (1 =? 0) with false. change (1 =? 1) with true. cbv iota. unfold parse_options.
    destruct Hb as (H1 & H2 & H3 & H4 & H5 & H6 & H7 & H8).
    cbn [length app]. rewrite !app_length, !be_bytes_length. cbn [Nat.add].
    pstep ltac:(apply be2_app; reflexivity).
    do 4 (pstep ltac:(apply be_uint1_cons)). rewrite <- ?app_assoc.
    do 4 (pstep ltac:(apply be2_app; assumption)). reflexivity.
  - change (2 =? 0) with false. change (2 =? 1) with false. change (2 =? 2) with true. cbv iota.
    unfold parse_nrouter_info. cbn [length].
    pstep ltac:(apply be2_app; lia).
    rewrite guard_step by lia. cbn [app]. pstep ltac:(apply be_uint1_cons).
    pstep ltac:(apply take_app; lia). destruct f; reflexivity.
  - change (3 =? 0) with false. change (3 =? 1) with false. change (3 =? 2) with false.
    change (3 =? 3) with true. cbv iota. destruct Hb as (H1 & H2 & H3 & H4 & H5).
    unfold parse_ni2np.
    pose proof (short_roundtrip m rest H1 H2 H4 H5) as E.
    assert (forall X, X = build_short m ++ rest ->
      bind parse_short (fun m0 => ret (BI2np m0)) X = Some (BI2np m, rest)) as G.
    { intros X ->. erewrite bind_step; [|exact E]. unfold ret. do 2 f_equal. destruct m as [ty id ex pl].
      cbn [m_type m_id m_expiration m_payload] in *. f_equal. f_equal.
      unfold whole_seconds. pose proof (N.div_mod ex 1000000000). lia. }
    apply G. unfold build_short, secs_of, len. rewrite <- !app_assoc. f_equal.
    { f_equal. cbn [length]. rewrite !app_length, !be_bytes_length. lia. }
    cbn [app]. change (mtype_u8 (m_type m) :: ?x) with ([mtype_u8 (m_type m)] ++ x).
    f_equal. destruct (m_type m); reflexivity.
  - change (4 =? 0) with false. change (4 =? 1) with false. change (4 =? 2) with false.
    change (4 =? 3) with false. change (4 =? 4) with true. cbv iota. destruct Hb as (H1 & H2).
    unfold parse_termination. rewrite app_length, be_bytes_length. cbn [length Nat.add].
    pstep ltac:(apply be2_app; reflexivity). pstep ltac:(apply be8_app; exact H1).
    cbn [app]. pstep ltac:(apply be_uint1_cons). reflexivity.
  - change (254 =? 0) with false. change (254 =? 1) with false. change (254 =? 2) with false.
    change (254 =? 3) with false. change (254 =? 4) with false. change (254 =? 254) with true.
    cbv iota. unfold parse_npadding. pstep ltac:(apply be2_app; exact Hb).
    pstep ltac:(apply take_app; lia). reflexivity.
Qed.

Lemma wire_block_nonempty b : (1 <= length (wire_block b))%nat.
Proof. destruct b; cbn [wire_block]; unfold ser_block; cbn [app length]; lia. Qed.

Lemma parse_wire_blocks bs : bs <> [] -> Forall block_ok bs -> forall fuel,
  (length bs <= fuel)%nat -> parse_nblocks fuel (concat (map wire_block bs)) = Some bs.
Proof.
  induction bs as [|b t IH]; [congruence|]. intros _ H fuel Hf.
  apply Forall_cons_iff in H as [Hb Ht]. destruct fuel as [|fuel]; cbn [length] in Hf; [lia|].
  cbn [map concat parse_nblocks]. rewrite (parse_wire_block b _ Hb).
  destruct t as [|b2 t2]; [reflexivity|].
  specialize (IH ltac:(discriminate) Ht fuel ltac:(cbn [length] in *; lia)).
  assert (1 <= length (concat (map wire_block (b2 :: t2))))%nat as Hlen.
  { cbn [map concat]. rewrite app_length. pose proof (wire_block_nonempty b2). lia. }
  destruct (concat (map wire_block (b2 :: t2))) as [|x y]; [cbn [length] in Hlen; lia|].
  now rewrite IH.
Qed.

Lemma parse_multiple_wire bs : bs <> [] -> Forall block_ok bs ->
  parse_multiple (concat (map wire_block bs)) = Some bs.
Proof.
  intros Hne H. apply parse_wire_blocks; auto.
  assert (forall l, (length l <= length (concat (map wire_block l)))%nat) as G.
  { induction l as [|a l IHl]; [reflexivity|]. cbn [map concat length]. rewrite app_length.
    pose proof (wire_block_nonempty a). lia. }
  specialize (G bs). lia.
Qed.

(** ** The stream a writer produces *)
Definition frame1 (x : sipctx) (key : bytes) (n : N) (plain : bytes) : bytes :=
  let ct := seal c key (nonce_bytes n) [] plain in
  be_bytes 2 (N.lxor (N.of_nat (length ct) mod 65536) (sip_mask c x)) ++ ct.
Fixpoint wire (x : sipctx) (key : bytes) (n : N) (ps : list bytes) : bytes :=
  match ps with
  | [] => []
  | p :: t => frame1 x key n p ++ wire (sip_next c x) key (n + 1) t
  end.
Fixpoint sip_after (k : nat) (x : sipctx) : sipctx :=
  match k with O => x | S k' => sip_next c (sip_after k' x) end.

Lemma sip_after_next k x : sip_after k (sip_next c x) = sip_next c (sip_after k x).
Proof. induction k; cbn; congruence. Qed.

Lemma wire_app a : forall x key n b,
  wire x key n (a ++ b) = wire x key n a ++ wire (sip_after (length a) x) key (n + N.of_nat (length a)) b.
Proof.
  induction a as [|p a IH]; intros x key n b; cbn [app wire length sip_after].
  - f_equal. lia.
  - rewrite IH, <- app_assoc. f_equal. rewrite sip_after_next. f_equal.
    f_equal. lia.
Qed.

(** What a writer still has to hand to the kernel of the frames it has made. *)
Definition in_hand (w : nwriter) : bytes :=
  match nw_state w with
  | NWGet => []
  | NWSize off s m => skipn off s ++ m
  | NWMsg off m => skipn off m
  | NWPoisoned => []
  end.

Definition winv (x0 : sipctx) (key : bytes) (q : list bytes) (o : bytes) (w : nwriter) : Prop :=
  exists k, (k <= length q)%nat /\
    match nw_state w with
    | NWPoisoned => prefix_of o (wire x0 key 0 (map new_i2np_message q))
    | _ =>
      nw_queue w = skipn k q /\ nw_sip w = sip_after k x0 /\
      nw_cipher w = mkChacha key (N.of_nat k) /\
      o ++ in_hand w = wire x0 key 0 (map new_i2np_message (firstn k q)) /\
      match nw_state w with
      | NWSize off s m => (off < length s)%nat /\ (0 < length m)%nat
      | NWMsg off m => (off < length m)%nat
      | _ => True
      end
    end.

Lemma frame1_ct x key n p : exists s ct, frame1 x key n p = s ++ ct /\ length s = 2%nat /\
  length ct = (length p + 16)%nat.
Proof.
  exists (be_bytes 2 (N.lxor (N.of_nat (length (seal c key (nonce_bytes n) [] p)) mod 65536) (sip_mask c x))),
    (seal c key (nonce_bytes n) [] p). split; [reflexivity|]. split; [apply be_bytes_length|].
  apply (proj2 Haead).
Qed.

Lemma wire_prefix_poison x0 key q k o h :
  (k <= length q)%nat -> o ++ h = wire x0 key 0 (map new_i2np_message (firstn k q)) ->
  prefix_of o (wire x0 key 0 (map new_i2np_message q)).
Proof.
  intros Hk H. rewrite <- (firstn_skipn k q), map_app, wire_app, <- H, <- app_assoc.
  eexists. reflexivity.
Qed.

Lemma nwrote_inv x0 key q o w :
  nwrote c (nwriter_new x0 key) q o w -> N.of_nat (length q) < 2 ^ 64 - 1 -> winv x0 key q o w.
Proof.
  induction 1 as [|q o w m H IH|q o w r H IH Hk]; intros Hq.
  - exists 0%nat. split; [lia|]. cbn. auto 8.
  - rewrite app_length in Hq. cbn [length] in Hq. specialize (IH ltac:(lia)).
    destruct IH as (k & Hkl & Hi). exists k. rewrite app_length. split; [lia|].
    unfold nw_send, in_hand in *. cbn [nw_state nw_queue nw_sip nw_cipher].
    destruct (nw_state w); try (destruct Hi as (H1 & H2 & H3 & H4 & H5);
      (split; [rewrite skipn_app, H1; f_equal; now replace (k - length q)%nat with 0%nat by lia|]);
      split; [exact H2|]; split; [exact H3|]; split; [|exact H5];
      rewrite firstn_app; replace (k - length q)%nat with 0%nat by lia; cbn [firstn];
      rewrite (app_nil_r (firstn k q)); exact H4).
    destruct Hi as [t Ht]. rewrite map_app, wire_app, Ht, <- app_assoc. eexists. reflexivity.
  - specialize (IH Hq). destruct IH as (k & Hkl & Hi). unfold nw_iter, nkernel_can in *.
    destruct (nw_state w) as [|off s m|off m|] eqn:Es.
    + (* get *)
      destruct Hi as (H1 & H2 & H3 & H4 & _). unfold in_hand in H4. rewrite Es in H4.
      destruct (nw_queue w) as [|m t] eqn:Eq.
      * cbn [fst snd]. rewrite app_nil_r. exists k. split; [exact Hkl|]. rewrite Es.
        unfold in_hand. rewrite Es. repeat apply conj; auto. congruence.
      * assert (k < length q)%nat as Hlt.
        { assert (length (skipn k q) = length (m :: t)) as Hx by now rewrite H1.
          rewrite skipn_length in Hx. cbn [length] in Hx. lia. }
        unfold cc_encrypt, nonce_next. rewrite H3. cbn [cc_nonce cc_key].
        destruct (N.of_nat k =? 2 ^ 64 - 1) eqn:En; [lia|].
        unfold sip_obfuscate. cbn [fst snd]. rewrite app_nil_r.
        exists (S k). split; [lia|]. cbn [nw_state nw_queue nw_sip nw_cipher].
        assert (skipn (S k) q = t) as Hs.
        { replace (S k) with (k + 1)%nat by lia. rewrite <- skipn_add, <- H1. reflexivity. }
        assert (firstn (S k) q = firstn k q ++ [m]) as Hf.
        { apply firstn_snoc. rewrite <- (firstn_skipn k q), <- H1, nth_error_app2;
            rewrite firstn_length_le by lia; [|lia]. now rewrite Nat.sub_diag. }
        split; [now symmetry|]. split; [cbn [sip_after]; now rewrite H2|].
        split; [f_equal; lia|]. split.
        -- unfold in_hand. cbn [nw_state skipn]. rewrite Hf, map_app, wire_app.
           rewrite app_nil_r in H4. rewrite <- H4. f_equal. rewrite map_length, firstn_length_le by lia.
           cbn [map wire]. rewrite app_nil_r. unfold frame1. rewrite H2, N.add_0_l. reflexivity.
        -- rewrite be_bytes_length, (proj2 Haead). unfold new_i2np_message. cbn [length]. lia.
    + destruct Hi as (H1 & H2 & H3 & H4 & H5 & H6). unfold in_hand in H4. rewrite Es in H4.
      destruct r as [| |[|n]]; cbn [fst snd nw_state]; rewrite ?app_nil_r.
      * exists k. rewrite Es. split; [exact Hkl|]. unfold in_hand. rewrite Es. auto 8.
      * exists k. split; [exact Hkl|]. cbn [nw_state]. eapply wire_prefix_poison; eassumption.
      * exists k. split; [exact Hkl|]. cbn [nw_state]. eapply wire_prefix_poison; eassumption.
      * exists k. split; [exact Hkl|]. cbn [nw_queue nw_sip nw_cipher nw_state].
        destruct (S n + off =? length s)%nat eqn:El; unfold in_hand; cbn [nw_state].
        -- repeat apply conj; auto.
           rewrite <- H4. cbn [skipn]. rewrite <- app_assoc. do 2 f_equal.
           rewrite firstn_all2; [reflexivity|]. rewrite skipn_length. lia.
        -- repeat apply conj; auto; [|lia].
           rewrite <- H4, <- !app_assoc. f_equal. rewrite app_assoc. f_equal.
           rewrite <- skipn_add. apply firstn_skipn.
    + destruct Hi as (H1 & H2 & H3 & H4 & H5). unfold in_hand in H4. rewrite Es in H4.
      destruct r as [| |[|n]]; cbn [fst snd nw_state]; rewrite ?app_nil_r.
      * exists k. rewrite Es. split; [exact Hkl|]. unfold in_hand. rewrite Es. auto 8.
      * exists k. split; [exact Hkl|]. cbn [nw_state]. eapply wire_prefix_poison; eassumption.
      * exists k. split; [exact Hkl|]. cbn [nw_state]. eapply wire_prefix_poison; eassumption.
      * exists k. split; [exact Hkl|]. cbn [nw_queue nw_sip nw_cipher nw_state].
        destruct (S n + off =? length m)%nat eqn:El; unfold in_hand; cbn [nw_state].
        -- repeat apply conj; auto.
           rewrite <- H4, app_nil_r. f_equal.
           rewrite firstn_all2; [reflexivity|]. rewrite skipn_length. lia.
        -- repeat apply conj; auto; [|lia].
           rewrite <- H4, <- !app_assoc. f_equal.
           rewrite <- skipn_add. apply firstn_skipn.
    + cbn [fst snd]. rewrite app_nil_r. exists k. rewrite Es. auto.
Qed.

(** ** The reader on such a stream *)
Definition synced (r : nreader) (x : sipctx) (key : bytes) (n : N) (p : bytes) : Prop :=
  length (nr_buf r) = i2cp_buffer /\ nr_cipher r = mkChacha key n /\
  match nr_state r with
  | NRSize off => off = length p /\ (off < 2)%nat /\ firstn off (nr_buf r) = p /\ nr_sip r = x
  | NRFrame size off => exists q,
      p = be_bytes 2 (N.lxor size (sip_mask c x)) ++ q /\ size < 65536 /\
      off = length q /\ (off < N.to_nat size)%nat /\ firstn off (nr_buf r) = q /\
      nr_sip r = sip_next c x
  | NRClosed _ => False
  end.

Lemma synced_new x key : synced (nreader_new x key) x key 0 [].
Proof.
  unfold synced, nreader_new. cbn [nr_buf nr_cipher nr_state nr_sip]. rewrite repeat_length.
  repeat apply conj; auto.
Qed.

(** Plain frames that carry I2NP messages only. *)
Definition carries (plain : bytes) (ms : list message) : Prop :=
  N.of_nat (length plain) + 16 < 65536 /\
  exists bs, parse_multiple plain = Some bs /\ termination_of bs = None /\ i2np_of bs = ms.

Lemma app_split_len {A} (a b x y : list A) :
  a ++ b = x ++ y -> (length a <= length x)%nat -> exists z, x = a ++ z /\ b = z ++ y.
Proof.
  revert x. induction a as [|h a IH]; intros x H Hl; cbn [app length] in *.
  - now exists x.
  - destruct x as [|h' x]; cbn [length] in Hl; [lia|]. injection H as -> H.
    destruct (IH x H ltac:(lia)) as (z & -> & ->). now exists z.
Qed.

Lemma on_read_synced r x key n p k chunk t plain ms ps :
  synced r x key n p -> n < 2 ^ 64 - 1 -> carries plain ms ->
  nr_room r = Some k -> chunk <> [] -> (length chunk <= k)%nat ->
  p ++ chunk ++ t = wire x key n (plain :: ps) ->
  (synced (fst (nr_on_read c r chunk)) x key n (p ++ chunk) /\ snd (nr_on_read c r chunk) = []) \/
  (p ++ chunk = frame1 x key n plain /\
   synced (fst (nr_on_read c r chunk)) (sip_next c x) key (n + 1) [] /\
   snd (nr_on_read c r chunk) = ms).
Proof.
  intros (Hb & Hc & Hs) Hn (Hpl & bs & Hpm & Htm & Hms) Hk Hne Hlk Hw.
  assert (length chunk <> 0)%nat as Hc0 by (destruct chunk; [congruence|discriminate]).
  unfold nr_room in Hk. unfold nr_on_read.
  cbn [wire] in Hw. unfold frame1 in Hw.
  set (ct := seal c key (nonce_bytes n) [] plain) in *.
  assert (length ct = (length plain + 16)%nat) as Hct by apply (proj2 Haead).
  assert (N.of_nat (length ct) mod 65536 = N.of_nat (length ct)) as Hmod
    by (apply N.mod_small; lia).
  rewrite Hmod in Hw.
  pose proof (land_small (siphash c (sip_key1 x) (sip_key2 x) (sip_iv x))) as Hmask.
  fold (sip_mask c x) in Hmask.
  destruct (nr_state r) as [off|size off|why] eqn:Es; [| |contradiction].
  - destruct Hs as (Ho & Ho2 & Hf & Hsip). apply Some_inj in Hk. subst k.
    destruct ((off + length chunk =? 2)%nat) eqn:E2; cbn [negb].
    + left. unfold sip_deobfuscate. cbn [fst snd]. split; [|reflexivity].
      assert (firstn 2 (put_at off chunk (nr_buf r)) = p ++ chunk) as H2.
      { assert (2%nat = (off + length chunk)%nat) as -> by lia.
        apply put_at_firstn; [rewrite Hb; pose proof buffer_N; lia|exact Hf]. }
      rewrite H2.
      assert (p ++ chunk = be_bytes 2 (N.lxor (N.of_nat (length ct)) (sip_mask c x))) as Hpc.
      { rewrite app_assoc, <- !app_assoc in Hw. rewrite (app_assoc p) in Hw.
        apply app_inj_len in Hw; [exact (proj1 Hw)|].
        rewrite app_length, be_bytes_length. lia. }
      rewrite Hpc. rewrite be_val2 by (apply lxor_small; lia).
      rewrite Hsip, mask_twice. unfold synced. cbn [nr_buf nr_cipher nr_state nr_sip].
      split; [rewrite put_at_length; [exact Hb|rewrite Hb; pose proof buffer_N; lia]|].
      split; [exact Hc|]. exists []. rewrite app_nil_r. cbn [length firstn].
      repeat apply conj; auto; lia.
    + left. cbn [fst snd]. split; [|reflexivity]. unfold synced. cbn [nr_buf nr_cipher nr_state nr_sip].
      split; [rewrite put_at_length; [exact Hb|rewrite Hb; pose proof buffer_N; lia]|].
      split; [exact Hc|]. rewrite app_length. split; [lia|]. split; [lia|].
      split; [|exact Hsip].
      apply put_at_firstn; [rewrite Hb; pose proof buffer_N; lia|exact Hf].
  - destruct Hs as (q & Hp & Hsz & Ho & Hos & Hf & Hsip). apply Some_inj in Hk. subst k.
    subst p. rewrite <- !app_assoc in Hw.
    apply app_inj_len in Hw; [|now rewrite !be_bytes_length]. destruct Hw as [Hw1 Hw2].
    apply be_bytes_inj in Hw1; [|change (256 ^ N.of_nat 2) with 65536; apply lxor_small; lia ..].
    assert (size = N.of_nat (length ct)) as Hsize.
    { rewrite <- (mask_twice size (sip_mask c x)), Hw1. apply mask_twice. }
    assert (off + length chunk <= length (nr_buf r))%nat as Hfit.
    { rewrite Hb. pose proof buffer_N. lia. }
    destruct (off + length chunk <? N.to_nat size)%nat eqn:El.
    + left. cbn [fst snd]. split; [|reflexivity]. unfold synced. cbn [nr_buf nr_cipher nr_state nr_sip].
      split; [now rewrite put_at_length|]. split; [exact Hc|].
      exists (q ++ chunk). rewrite <- app_assoc, app_length. repeat apply conj; auto; try lia.
      rewrite (put_at_firstn _ _ _ _ Hfit Hf). auto.
    + right.
      assert (q ++ chunk = ct) as Hq.
      { rewrite app_assoc in Hw2. apply app_inj_len in Hw2; [exact (proj1 Hw2)|].
        rewrite app_length. lia. }
      assert (firstn (N.to_nat size) (put_at off chunk (nr_buf r)) = ct) as Hct2.
      { assert (N.to_nat size = off + length chunk)%nat as -> by lia.
        rewrite (put_at_firstn _ _ _ _ Hfit Hf). auto. }
      rewrite Hct2. unfold cc_decrypt, nonce_next. rewrite Hc. cbn [cc_nonce cc_key].
      destruct (n =? 2 ^ 64 - 1) eqn:En; [lia|]. unfold ct. rewrite (proj1 Haead). fold ct.
      rewrite Hpm, Htm. cbn [fst snd]. split; [|split; [|exact Hms]].
      * unfold frame1. fold ct. rewrite Hmod, <- app_assoc, Hw1, Hq. reflexivity.
      * unfold synced. cbn [nr_buf nr_cipher nr_state nr_sip].
        split; [now rewrite put_at_length|]. split; [reflexivity|].
        cbn [length firstn]. repeat apply conj; auto; lia.
Qed.

Lemma synced_short r x key n p plain ps t :
  synced r x key n p -> N.of_nat (length plain) + 16 < 65536 ->
  p ++ t = wire x key n (plain :: ps) -> (length p < length (frame1 x key n plain))%nat.
Proof.
  intros (Hb & Hc & Hs) Hpl Hw. unfold frame1 in *. cbn [wire] in Hw. unfold frame1 in Hw.
  set (ct := seal c key (nonce_bytes n) [] plain) in *.
  assert (length ct = (length plain + 16)%nat) as Hct by apply (proj2 Haead).
  rewrite app_length, be_bytes_length.
  destruct (nr_state r) as [off|size off|why]; [lia| |contradiction].
  destruct Hs as (q & Hp & Hsz & Ho & Hos & Hf & Hsip). subst p. rewrite <- !app_assoc in Hw.
  assert (N.of_nat (length ct) mod 65536 = N.of_nat (length ct)) as Hmod
    by (apply N.mod_small; lia).
  rewrite Hmod in Hw.
  pose proof (land_small (siphash c (sip_key1 x) (sip_key2 x) (sip_iv x))) as Hmask.
  fold (sip_mask c x) in Hmask.
  apply app_inj_len in Hw; [|now rewrite !be_bytes_length]. destruct Hw as [Hw1 Hw2].
  apply be_bytes_inj in Hw1; [|change (256 ^ N.of_nat 2) with 65536; apply lxor_small; lia ..].
  assert (size = N.of_nat (length ct)) as Hsize.
  { rewrite <- (mask_twice size (sip_mask c x)), Hw1. apply mask_twice. }
  rewrite app_length, be_bytes_length. lia.
Qed.

(** Reading a prefix of what was written delivers the messages of a prefix of the frames, and
    nothing is left over when everything was read. *)
Lemma reads_synced r s out r' :
  socket_reads nr_room (nr_on_read c) r s out r' ->
  forall x key n p ps mss t, synced r x key n p ->
    Forall2 carries ps mss -> n + N.of_nat (length ps) < 2 ^ 64 ->
    p ++ s ++ t = wire x key n ps ->
    exists k, (k <= length ps)%nat /\ out = concat (firstn k mss) /\
      exists p', synced r' (sip_after k x) key (n + N.of_nat k) p' /\
        p' ++ t = wire (sip_after k x) key (n + N.of_nat k) (skipn k ps).
Proof.
  induction 1 as [r|r k chunk rest out r' Hk Hne Hl H IH]; intros x key n p ps mss t Hs Hc Hn Hw.
  - exists 0%nat. split; [lia|]. split; [reflexivity|]. exists p. cbn [sip_after skipn].
    rewrite N.add_0_r. auto.
  - destruct Hc as [|plain ms ps mss Hc1 Hc2].
    { cbn [wire] in Hw. apply app_eq_nil in Hw as [_ Hw]. apply app_eq_nil in Hw as [Hw _].
      apply app_eq_nil in Hw as [Hw _]. contradiction. }
    cbn [length] in Hn.
    rewrite <- (app_assoc chunk) in Hw.
    destruct (on_read_synced r x key n p k chunk (rest ++ t) plain ms ps Hs ltac:(lia) Hc1 Hk Hne Hl Hw)
      as [[Hs' Ho]|(Hf & Hs' & Ho)].
    + destruct (IH x key n (p ++ chunk) (plain :: ps) (ms :: mss) t Hs')
        as (k' & Hk' & Ho' & Hrest).
      * now constructor.
      * cbn [length]. lia.
      * now rewrite <- app_assoc.
      * exists k'. rewrite Ho. cbn [app]. auto.
    + destruct (IH (sip_next c x) key (n + 1) [] ps mss t Hs' Hc2 ltac:(lia))
        as (k' & Hk' & Ho' & p' & Hp1 & Hp2).
      * cbn [wire] in Hw. rewrite app_assoc, Hf in Hw. now apply app_inv_head in Hw.
      * exists (S k'). cbn [length firstn concat skipn sip_after]. split; [lia|].
        split; [now rewrite Ho, Ho'|]. rewrite sip_after_next in Hp1, Hp2.
        exists p'. replace (n + N.of_nat (S k')) with (n + 1 + N.of_nat k') by lia. auto.
Qed.
End WithCrypt.

Section EndToEnd.
Variable c : ncrypt.
Hypothesis Haead : aead_ok c.

Lemma carries_message m : fits_frame m ->
  carries (new_i2np_message (build_short m)) [received m].
Proof.
  intros (H1 & H2 & H3 & H4). split.
  - unfold new_i2np_message. cbn [length]. pose proof (build_short_length m).
    unfold len_short, len in *. lia.
  - exists [BI2np (received m)]. split; [|now split].
    unfold parse_multiple, new_i2np_message. cbn [parse_nblocks].
    unfold parse_nblock. pstep ltac:(apply be_uint1_cons).
    change (3 =? 0) with false. change (3 =? 1) with false. change (3 =? 2) with false.
    change (3 =? 3) with true. cbv iota. unfold parse_ni2np.
    erewrite bind_step.
    2: { rewrite <- (app_nil_r (build_short m)). apply short_roundtrip; auto. lia. }
    reflexivity.
Qed.

Lemma carries_all ms : Forall fits_frame ms ->
  Forall2 carries (map new_i2np_message (map build_short ms)) (map (fun m => [received m]) ms).
Proof.
  induction 1; cbn [map]; constructor; auto. now apply carries_message.
Qed.

Lemma concat_singles {A B} (f : A -> B) k l :
  concat (firstn k (map (fun m => [f m]) l)) = firstn k (map f l).
Proof.
  revert l. induction k; intros [|a l]; cbn [map firstn concat app]; auto. now rewrite IHk.
Qed.

Lemma end_to_end x key ms written w read out r :
  Forall fits_frame ms -> N.of_nat (length ms) < 2 ^ 64 - 1 ->
  nwrote c (nwriter_new x key) (map build_short ms) written w ->
  prefix_of read written ->
  socket_reads nr_room (nr_on_read c) (nreader_new x key) read out r ->
  prefix_of out (map received ms) /\
  (nidle w -> read = written -> out = map received ms).
Proof.
  intros Hf Hn Hw [t0 Hp] Hr.
  pose proof (nwrote_inv c Haead _ _ _ _ _ Hw) as Hi. rewrite map_length in Hi. specialize (Hi Hn).
  assert (exists k t, (k <= length ms)%nat /\
            written ++ t = wire c x key 0 (map new_i2np_message (map build_short (firstn k ms))) /\
            (nidle w -> t = [] /\ k = length ms)) as (k & t & Hk & Ht & Hidle).
  { destruct Hi as (k & Hk & Hi). rewrite map_length in Hk.
    destruct (nw_state w) eqn:Es.
    1-3: destruct Hi as (H1 & H2 & H3 & H4 & H5); exists k, (in_hand w); split; [exact Hk|];
      split; [rewrite <- firstn_map; exact H4|]; intros [Hq Hs].
    - split; [unfold in_hand; now rewrite Es|]. rewrite Hq in H1.
      symmetry in H1. apply (f_equal (@length _)) in H1.
      rewrite skipn_length, map_length in H1. cbn [length] in H1. lia.
    - congruence.
    - congruence.
    - destruct Hi as [t Ht]. exists (length ms), t. split; [lia|]. rewrite firstn_all. split; [now symmetry|].
      intros [_ Hs]. congruence. }
  pose proof (reads_synced c Haead _ _ _ _ Hr x key 0 []
    (map new_i2np_message (map build_short (firstn k ms)))
    (map (fun m => [received m]) (firstn k ms)) (t0 ++ t) (synced_new c x key)) as G.
  assert (Forall fits_frame (firstn k ms)) as Hfk.
  { rewrite Forall_forall in *. intros m Hm. apply Hf. eapply In_firstn. exact Hm. }
  specialize (G (carries_all _ Hfk)).
  rewrite !map_length, firstn_length_le in G by lia. specialize (G ltac:(lia)).
  cbn [app] in G. rewrite app_assoc, <- Hp in G. specialize (G Ht).
  destruct G as (j & Hj & Ho & p' & Hs' & Hp').
  rewrite concat_singles in Ho. rewrite <- firstn_map in Ho. rewrite firstn_firstn in Ho.
  replace (Nat.min j k) with j in Ho by lia.
  split.
  - exists (skipn j (map received ms)). rewrite Ho. symmetry. apply firstn_skipn.
  - intros Hid Hrw. destruct (Hidle Hid) as [-> ->].
    assert (t0 = []) as ->.
    { apply (f_equal (@length _)) in Hp. rewrite app_length, Hrw in Hp. destruct t0; [reflexivity|].
      cbn [length] in Hp. lia. }
    rewrite app_nil_r in Hp'. cbn [app] in Hp'. rewrite firstn_all in *.
    assert (j = length ms) as Hjl.
    { destruct (Nat.eq_dec j (length ms)) as [|Hne]; [assumption|exfalso].
      assert (Forall2 carries (skipn j (map new_i2np_message (map build_short ms)))
                (skipn j (map (fun m => [received m]) ms))) as Hsk.
      { pose proof (carries_all _ Hf) as Hall. revert Hall.
        generalize (map new_i2np_message (map build_short ms)) (map (fun m => [received m]) ms).
        clear. induction j as [|j IH]; intros l l' Hall; [exact Hall|].
        destruct Hall; cbn [skipn]; [constructor|]. now apply IH. }
      destruct (skipn j (map new_i2np_message (map build_short ms))) as [|plain ps] eqn:E.
      { apply (f_equal (@length _)) in E. rewrite skipn_length, !map_length in E. cbn [length] in E. lia. }
      inversion Hsk as [|? ms1 ? mss Hc1 Hc2].
      pose proof (synced_short c Haead r _ _ _ p' plain ps [] Hs' (proj1 Hc1)) as Hlen.
      rewrite app_nil_r in Hlen. specialize (Hlen Hp').
      rewrite Hp' in Hlen. cbn [wire] in Hlen. rewrite app_length in Hlen. lia. }
    subst j. rewrite Ho. apply firstn_all2. rewrite map_length. lia.
Qed.

Lemma wire_firstn_lt x key ps : forall j k n, (j < k)%nat -> (k <= length ps)%nat ->
  exists plain, nth_error ps j = Some plain /\
  (length (wire c x key n (firstn j ps)) +
   length (frame1 c (sip_after c j x) key (n + N.of_nat j) plain) <=
   length (wire c x key n (firstn k ps)))%nat.
Proof.
  intros j k n Hjk Hk.
  destruct (nth_error ps j) as [plain|] eqn:E.
  2: { apply nth_error_None in E. lia. }
  exists plain. split; [reflexivity|].
  assert (firstn k ps = firstn j ps ++ plain :: skipn (S j) (firstn k ps)) as ->.
  { rewrite <- (firstn_skipn (S j) (firstn k ps)) at 1. rewrite firstn_firstn.
    replace (Nat.min (S j) k) with (S j) by lia. rewrite (firstn_snoc _ _ _ _ E), <- app_assoc.
    reflexivity. }
  rewrite wire_app, app_length, firstn_length_le by lia. cbn [wire]. rewrite app_length. lia.
Qed.

Lemma segmentation_irrelevant x key ms written w read out1 r1 out2 r2 :
  Forall fits_frame ms -> N.of_nat (length ms) < 2 ^ 64 - 1 ->
  nwrote c (nwriter_new x key) (map build_short ms) written w ->
  prefix_of read written ->
  socket_reads nr_room (nr_on_read c) (nreader_new x key) read out1 r1 ->
  socket_reads nr_room (nr_on_read c) (nreader_new x key) read out2 r2 ->
  out1 = out2.
Proof.
  intros Hf Hn Hw [t0 Hp] Hr1 Hr2.
  pose proof (nwrote_inv c Haead _ _ _ _ _ Hw) as Hi. rewrite map_length in Hi. specialize (Hi Hn).
  assert (exists k t, (k <= length ms)%nat /\
            written ++ t = wire c x key 0 (map new_i2np_message (map build_short (firstn k ms))))
    as (k & t & Hk & Ht).
  { destruct Hi as (k & Hk & Hi). rewrite map_length in Hk.
    destruct (nw_state w) eqn:Es.
    1-3: destruct Hi as (H1 & H2 & H3 & H4 & H5); exists k, (in_hand w); split; [exact Hk|];
      rewrite <- firstn_map; exact H4.
    destruct Hi as [t Ht]. exists (length ms), t. split; [lia|]. rewrite firstn_all. now symmetry. }
  assert (Forall fits_frame (firstn k ms)) as Hfk.
  { rewrite Forall_forall in *. intros m Hm. apply Hf. eapply In_firstn. exact Hm. }
  set (ps := map new_i2np_message (map build_short (firstn k ms))) in *.
  set (mss := map (fun m => [received m]) (firstn k ms)) in *.
  assert (Forall2 carries ps mss) as Hcar by (apply carries_all; exact Hfk).
  assert (length ps = k) as Hlps.
  { unfold ps. now rewrite !map_length, firstn_length_le by lia. }
  assert (forall out r, socket_reads nr_room (nr_on_read c) (nreader_new x key) read out r ->
    exists j, (j <= length ps)%nat /\ out = concat (firstn j mss) /\
      exists p' : list N, length read = (length (wire c x key 0 (firstn j ps)) + length p')%nat /\
      forall plain, nth_error ps j = Some plain ->
        (length p' < length (frame1 c (sip_after c j x) key (N.of_nat j) plain))%nat) as G.
  { intros out r Hr.
    pose proof (reads_synced c Haead _ _ _ _ Hr x key 0 [] ps mss (t0 ++ t) (synced_new c x key)
      Hcar ltac:(lia)) as G.
    cbn [app] in G. rewrite app_assoc, <- Hp in G. specialize (G Ht).
    destruct G as (j & Hj & Ho & p' & Hs' & Hp'). exists j. split; [exact Hj|]. split; [exact Ho|].
    exists p'. rewrite N.add_0_l in *. split.
    - pose proof (f_equal (@length _) Ht) as L1. pose proof (f_equal (@length _) Hp') as L2.
      rewrite <- (firstn_skipn j ps) in L1 at 1.
      rewrite wire_app, Hp, !app_length, firstn_length_le in L1 by lia.
      rewrite !app_length in L2. rewrite N.add_0_l in L1. lia.
    - intros plain E.
      assert (skipn j ps = plain :: skipn (S j) ps) as Esk.
      { clear -E. revert j E. induction ps as [|a l IH]; intros [|j] E; cbn in *; try discriminate.
        - now injection E as ->.
        - now apply IH. }
      eapply synced_short; [exact Haead|exact Hs'| |rewrite <- Esk; exact Hp'].
      assert (In plain ps) as Hin by (eapply nth_error_In; exact E).
      clear -Hcar Hin. induction Hcar as [|a b l l' Hc Hcs IH]; [contradiction|].
      destruct Hin as [->|Hin]; [exact (proj1 Hc)|auto]. }
  destruct (G _ _ Hr1) as (j1 & Hj1 & -> & p1 & L1 & S1).
  destruct (G _ _ Hr2) as (j2 & Hj2 & -> & p2 & L2 & S2).
  destruct (Nat.lt_trichotomy j1 j2) as [Hlt|[->|Hlt]]; [| reflexivity |]; exfalso.
  - destruct (wire_firstn_lt x key ps j1 j2 0 Hlt Hj2) as (plain & E & Hle).
    specialize (S1 _ E). rewrite N.add_0_l in Hle. lia.
  - destruct (wire_firstn_lt x key ps j2 j1 0 Hlt Hj1) as (plain & E & Hle).
    specialize (S2 _ E). rewrite N.add_0_l in Hle. lia.
Qed.

(** ** Draining *)
Definition todo (w : nwriter) : nat :=
  match nw_state w with
  | NWGet => 0
  | NWSize off s m => 1 + (length s - off) + length m
  | NWMsg off m => length m - off
  | NWPoisoned => 0
  end.

Lemma queue_drains x key ms written w :
  nwrote c (nwriter_new x key) ms written w -> nw_state w <> NWPoisoned ->
  N.of_nat (length ms) < 2 ^ 64 - 1 ->
  exists written' w', nwrote c (nwriter_new x key) ms (written ++ written') w' /\ nidle w'.
Proof.
  intros Hw Hp Hn.
  remember (length (nw_queue w)) as q eqn:Eq. revert written w Hw Hp Eq.
  induction q as [q IHq] using lt_wf_ind.
  assert (forall n written w, nwrote c (nwriter_new x key) ms written w ->
            nw_state w <> NWPoisoned -> q = length (nw_queue w) -> todo w = n ->
            exists written' w', nwrote c (nwriter_new x key) ms (written ++ written') w' /\ nidle w') as G.
  { induction n as [n IHn] using lt_wf_ind. intros written w Hw Hp Eq En.
    pose proof (nwrote_inv c Haead _ _ _ _ _ Hw Hn) as (k & Hk & Hi).
    destruct (nw_state w) as [|off s m|off m|] eqn:Es; [| | |congruence].
    - destruct (nw_queue w) as [|m t] eqn:Em.
      { exists [], w. rewrite app_nil_r. split; [exact Hw|]. split; assumption. }
      destruct Hi as (H1 & H2 & H3 & H4 & _).
      assert (k < length ms)%nat as Hlt.
      { apply (f_equal (@length _)) in H1. rewrite skipn_length in H1. cbn [length] in H1. lia. }
      pose proof (nwrote_iter c _ _ _ _ WrPending Hw) as Hw'.
      unfold nkernel_can in Hw'. rewrite Es in Hw'. specialize (Hw' I).
      unfold nw_iter in Hw'. rewrite Es, Em in Hw'. unfold cc_encrypt, nonce_next in Hw'.
      rewrite H3 in Hw'. cbn [cc_nonce cc_key] in Hw'.
      destruct (N.of_nat k =? 2 ^ 64 - 1) eqn:Enn; [lia|].
      unfold sip_obfuscate in Hw'. cbn [fst snd] in Hw'. rewrite app_nil_r in Hw'.
      eapply (IHq (length t)); [rewrite Eq; cbn [length]; lia|exact Hw'|discriminate|reflexivity].
    - destruct Hi as (H1 & H2 & H3 & H4 & H5 & H6).
      pose proof (nwrote_iter c _ _ _ _ (WrOk (length s - off)) Hw) as Hw'.
      unfold nkernel_can in Hw'. rewrite Es in Hw'. specialize (Hw' (le_n _)).
      unfold nw_iter in Hw'. rewrite Es in Hw'.
      destruct (length s - off)%nat as [|d] eqn:Ed; [lia|].
      replace (S d + off =? length s)%nat with true in Hw' by (symmetry; apply Nat.eqb_eq; lia).
      cbn [fst snd] in Hw'. unfold todo in En. rewrite Es in En.
      destruct (IHn (length m) ltac:(lia) _ _ Hw') as (wr & w' & G1 & G2).
      + discriminate.
      + exact Eq.
      + unfold todo. cbn [nw_state]. lia.
      + exists (firstn (S d) (skipn off s) ++ wr), w'. rewrite app_assoc. auto.
    - destruct Hi as (H1 & H2 & H3 & H4 & H5).
      pose proof (nwrote_iter c _ _ _ _ (WrOk (length m - off)) Hw) as Hw'.
      unfold nkernel_can in Hw'. rewrite Es in Hw'. specialize (Hw' (le_n _)).
      unfold nw_iter in Hw'. rewrite Es in Hw'.
      destruct (length m - off)%nat as [|d] eqn:Ed; [lia|].
      replace (S d + off =? length m)%nat with true in Hw' by (symmetry; apply Nat.eqb_eq; lia).
      cbn [fst snd] in Hw'. unfold todo in En. rewrite Es in En.
      destruct (IHn 0%nat ltac:(lia) _ _ Hw') as (wr & w' & G1 & G2).
      + discriminate.
      + exact Eq.
      + reflexivity.
      + exists (firstn (S d) (skipn off m) ++ wr), w'. rewrite app_assoc. auto. }
  intros written w Hw Hp Eq. eapply G; eauto.
Qed.

Lemma large_message x key m :
  65508 <= N.of_nat (length (m_payload m)) <= 65526 ->
  exists s data w,
    nw_iter c (nw_send (nwriter_new x key) (build_short m)) WrPending = (w, [], WContinue) /\
    nw_state w = NWSize 0 s data /\
    fst (sip_deobfuscate c x (be_val s)) <> N.of_nat (length data) /\
    fst (sip_deobfuscate c x (be_val s)) < 19.
Proof.
  intros Hl. eexists. eexists. eexists. split; [|split].
  - unfold nw_iter, nw_send, nwriter_new, chacha_new. cbn [nw_state nw_queue nw_sip nw_cipher app].
    unfold cc_encrypt, nonce_next. cbn [cc_nonce cc_key].
    change (0 =? 2 ^ 64 - 1) with false. cbv iota. unfold sip_obfuscate. reflexivity.
  - cbn [nw_state]. reflexivity.
  - unfold sip_deobfuscate. cbn [fst].
    rewrite be_val2.
    2: { apply lxor_small; [apply N.mod_lt; discriminate|apply land_small]. }
    rewrite mask_twice, (proj2 Haead). unfold new_i2np_message.
    pose proof (build_short_length m) as Hb. unfold len_short, len in Hb.
    change (length (3 :: build_short m)) with (S (length (build_short m))).
    generalize dependent (length (build_short m)). intros lb Hb.
    assert (N.of_nat (S lb + 16) = N.of_nat (length (m_payload m)) + 28) as Hx by lia.
    rewrite Hx. generalize dependent (N.of_nat (length (m_payload m))). intros l H1 H2 H3.
    assert ((l + 28) mod 65536 = l + 28 - 65536) as ->.
    { symmetry. apply N.mod_unique with 1; lia. }
    lia.
Qed.

Lemma ciphers_in_step key : forall ps n, n + N.of_nat (length ps) < 2 ^ 64 ->
  exists cs, fst (encrypt_all c (with_nonce key n) ps) = map Some cs /\
    fst (decrypt_all c (with_nonce key n) cs) = map Some ps.
Proof.
  unfold with_nonce. induction ps as [|p ps IH]; intros n Hn.
  - exists []. now split.
  - cbn [length] in Hn. destruct (IH (n + 1) ltac:(lia)) as (cs & H1 & H2).
    exists (seal c key (nonce_bytes n) [] p :: cs). cbn [encrypt_all decrypt_all map].
    unfold cc_encrypt, cc_decrypt, nonce_next. cbn [cc_nonce cc_key].
    destruct (n =? 2 ^ 64 - 1) eqn:E; [lia|].
    destruct (encrypt_all c {| cc_key := key; cc_nonce := n + 1 |} ps) as [os x1].
    destruct (decrypt_all c {| cc_key := key; cc_nonce := n + 1 |} cs) as [os2 x2].
    cbn [fst] in *. rewrite (proj1 Haead). split; congruence.
Qed.
End EndToEnd.

Lemma lengths_in_step c secret h ls :
  lengths_through c (sip_send (sip_initiator c secret h)) (sip_recv (sip_responder c secret h)) ls = ls /\
  lengths_through c (sip_send (sip_responder c secret h)) (sip_recv (sip_initiator c secret h)) ls = ls.
Proof.
  assert (forall ls x, lengths_through c x x ls = ls) as G.
  { clear. induction ls as [|l ls IH]; intros x; [reflexivity|].
    cbn [lengths_through]. unfold sip_obfuscate, sip_deobfuscate. now rewrite mask_twice, IH. }
  split; apply G.
Qed.

Lemma encrypt_exhausted c key ps : forall i p, nth_error ps i = Some p ->
  nth_error (fst (encrypt_all c (mkChacha key (2 ^ 64 - 1)) ps)) i = Some None.
Proof.
  induction ps as [|a ps IH]; intros i p E; [now destruct i|].
  cbn [encrypt_all]. unfold cc_encrypt, nonce_next. cbn [cc_nonce].
  rewrite N.eqb_refl. destruct (encrypt_all c {| cc_key := key; cc_nonce := 2 ^ 64 - 1 |} ps) eqn:Ee.
  cbn [fst]. destruct i as [|i]; [reflexivity|]. cbn [nth_error] in *.
  specialize (IH i p E). exact IH.
Qed.

Lemma nonces_never_repeat c key n ps : n <= 2 ^ 64 - 1 ->
  (forall i p, nth_error ps i = Some p ->
     nth_error (fst (encrypt_all c (with_nonce key n) ps)) i =
     Some (if n + N.of_nat i <? 2 ^ 64 - 1
           then Some (seal c key (nonce_bytes (n + N.of_nat i)) [] p) else None)) /\
  (forall a b, a < 2 ^ 64 -> b < 2 ^ 64 -> nonce_bytes a = nonce_bytes b -> a = b).
Proof.
  intros Hn. split; [|exact nonce_bytes_inj]. unfold with_nonce. revert n Hn.
  induction ps as [|a ps IH]; intros n Hn i p E; [now destruct i|].
  destruct (N.eq_dec n (2 ^ 64 - 1)) as [->|Hne].
  { rewrite (encrypt_exhausted c key (a :: ps) i p E).
    destruct (2 ^ 64 - 1 + N.of_nat i <? 2 ^ 64 - 1) eqn:El; [lia|reflexivity]. }
  cbn [encrypt_all]. unfold cc_encrypt, nonce_next. cbn [cc_nonce cc_key].
  destruct (n =? 2 ^ 64 - 1) eqn:El; [lia|].
  specialize (IH (n + 1) ltac:(lia)).
  destruct (encrypt_all c {| cc_key := key; cc_nonce := n + 1 |} ps) as [os x'] eqn:Ee.
  cbn [fst] in *. destruct i as [|i].
  - cbn [nth_error] in *. injection E as ->. change (N.of_nat 0) with 0. rewrite N.add_0_r.
    destruct (n <? 2 ^ 64 - 1) eqn:El2; [reflexivity|lia].
  - cbn [nth_error] in *. rewrite (IH i p E).
    replace (n + 1 + N.of_nat i) with (n + N.of_nat (S i)) by lia. reflexivity.
Qed.

Lemma written_blocks :
  (forall m, m_id m < 2 ^ 32 -> m_expiration m < 1000000000 * 2 ^ 32 ->
     N.of_nat (length (m_payload m)) <= 65526 ->
     new_i2np_message (build_short m) = wire_block (BI2np m)) /\
  (forall ri, N.of_nat (length ri) < 65535 ->
     new_router_info ri = Some (wire_block (BRouterInfo false ri))).
Proof.
  split.
  - intros m _ _ Hl. unfold new_i2np_message, build_short, wire_block, ser_block, secs_of, len.
    cbn [app]. f_equal. f_equal.
    + f_equal. cbn [length]. rewrite !app_length, !be_bytes_length. lia.
    + change (mtype_u8 (m_type m) :: ?x) with ([mtype_u8 (m_type m)] ++ x). f_equal.
      now destruct (m_type m).
  - intros ri Hl. unfold new_router_info, wire_block, ser_block.
    rewrite N.mod_small by lia. destruct (N.of_nat (length ri) =? 65535) eqn:E; [lia|].
    cbn [app length]. do 3 f_equal. f_equal. lia.
Qed.
