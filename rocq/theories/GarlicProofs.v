(** Proofs about GarlicModel.v and the variable build record. *)
From Coq Require Import List NArith Bool Arith Lia ZArith ZifyBool ZifyNat ZifyN.
From Verif Require Import ListUtil Bytes PrimModel PrimSpec PrimProofs I2npModel GarlicModel
  I2npSpec I2npProofs.
Import ListNotations.
Open Scope N_scope.

Lemma delivery_roundtrip d rest :
  delivery_ok d -> parse_delivery (ser_delivery d ++ rest) = Some (d, rest).
Proof.
  intros H. unfold parse_delivery. destruct d as [|h|h|h t]; cbn [ser_delivery app].
  - reflexivity.
  - pstep ltac:(apply be_uint1_cons). rewrite !guard_step by reflexivity. change (N.land (N.shiftr 32 5) 3) with 1. cbv iota.
    pstep ltac:(apply take_app; exact H). reflexivity.
  - pstep ltac:(apply be_uint1_cons). rewrite !guard_step by reflexivity.
    change (N.land (N.shiftr 64 5) 3) with 2. cbv iota.
    pstep ltac:(apply take_app; exact H). reflexivity.
  - pstep ltac:(apply be_uint1_cons). rewrite !guard_step by reflexivity.
    change (N.land (N.shiftr 96 5) 3) with 3. cbv iota. rewrite <- app_assoc.
    pstep ltac:(apply take_app; apply H). destruct H as [_ H].
    pstep ltac:(apply be4_app; exact H). reflexivity.
Qed.

Lemma overhead_eq d : N.of_nat (overhead d) = delivery_len d + 1 + 4 + 4.
Proof. destruct d; reflexivity. Qed.

Lemma acks_roundtrip l rest :
  Forall (fun x => fst x < 2 ^ 16 /\ snd x < 2 ^ 16) l ->
  many (length l) (a <- be_uint 2 ;; b <- be_uint 2 ;; ret (a, b))
    (flat_map (fun x => be_bytes 2 (fst x) ++ be_bytes 2 (snd x)) l ++ rest) = Some (l, rest).
Proof.
  intros H. apply many_app with (ok := fun x => fst x < 2 ^ 16 /\ snd x < 2 ^ 16); [|easy].
  intros [a b] r [Ha Hb]. cbn [fst snd] in *. rewrite <- app_assoc.
  pstep ltac:(apply be2_app; exact Ha). pstep ltac:(apply be2_app; exact Hb). reflexivity.
Qed.

Lemma block_roundtrip f b x rest :
  block_ok b -> ser_block b = Some x -> parse_block f (x ++ rest) = Some (received b, rest).
Proof.
  intros Hb Hx.
  assert (step : forall t y, t < 256 -> parse_block f ((be_bytes 1 t ++ y) ++ rest) =
    (if t =? 0 then parse_date_time
     else if t =? 11 then parse_clove
     else if t =? 254 then parse_padding
     else if t =? 7 then parse_next_key
     else if t =? 9 then parse_ack_request
     else if t =? 8 then parse_ack
     else
       size <- be_uint 2 ;;
       _ <- take (N.to_nat size) ;;
       match f with O => fail | S f => parse_block f end) (y ++ rest)).
  { intros t y Ht. rewrite <- app_assoc. destruct f; cbn [parse_block];
      pstep ltac:(apply be1_app; exact Ht); reflexivity. }
  destruct b as [t|k|l| |t id tm d body|p]; cbn [ser_block] in Hx.
  - apply (f_equal (fun o => match o with Some v => v | None => [] end)) in Hx. subst x.
    rewrite step by reflexivity. cbv iota beta match. unfold parse_date_time. cbn [N.eqb].
    rewrite <- app_assoc. pnum. cbn in Hb. pnum. reflexivity.
  - destruct k as [id [k|] rev|id [k|]]; cbn in Hb.
    + destruct Hb as (Hid & Hk & _).
      destruct rev; cbn [ser_next_key] in Hx;
      apply (f_equal (fun o => match o with Some v => v | None => [] end)) in Hx; subst x;
      rewrite step by reflexivity; change (7 =? 0) with false; cbn [N.eqb Pos.eqb];
      unfold parse_next_key; rewrite <- !app_assoc; pnum; pnum; pnum.
      * change (N.testbit 5 0) with true. cbv iota.
        pstep ltac:(unfold bind at 1; rewrite take_app by exact Hk; reflexivity). reflexivity.
      * change (N.testbit 1 0) with true. cbv iota.
        pstep ltac:(unfold bind at 1; rewrite take_app by exact Hk; reflexivity). reflexivity.
    + destruct Hb as (Hid & _ & [Hn|Hr]); [easy|]. subst rev. cbn [ser_next_key] in Hx.
      apply (f_equal (fun o => match o with Some v => v | None => [] end)) in Hx; subst x.
      rewrite step by reflexivity. cbn [N.eqb Pos.eqb]. unfold parse_next_key.
      rewrite <- !app_assoc; pnum; pnum; pnum. reflexivity.
    + destruct Hb as (Hid & Hk). cbn [ser_next_key] in Hx.
      apply (f_equal (fun o => match o with Some v => v | None => [] end)) in Hx; subst x.
      rewrite step by reflexivity. cbn [N.eqb Pos.eqb]. unfold parse_next_key.
      rewrite <- !app_assoc; pnum; pnum; pnum.
      change (N.testbit 3 0) with true. cbv iota.
      pstep ltac:(unfold bind at 1; rewrite take_app by exact Hk; reflexivity). reflexivity.
    + destruct Hb as (Hid & _). cbn [ser_next_key] in Hx.
      apply (f_equal (fun o => match o with Some v => v | None => [] end)) in Hx; subst x.
      rewrite step by reflexivity. cbn [N.eqb Pos.eqb]. unfold parse_next_key.
      rewrite <- !app_assoc; pnum; pnum; pnum. reflexivity.
  - apply (f_equal (fun o => match o with Some v => v | None => [] end)) in Hx. subst x.
    destruct Hb as [Hl Ha]. rewrite step by reflexivity. cbn [N.eqb Pos.eqb]. unfold parse_ack.
    rewrite N.mod_small by lia. rewrite <- !app_assoc. pnum.
    rewrite guard_step.
    2: { rewrite N.mod_mul by lia. reflexivity. }
    rewrite N.div_mul by lia. rewrite Nat2N.id.
    pstep ltac:(apply acks_roundtrip; exact Ha). reflexivity.
  - apply (f_equal (fun o => match o with Some v => v | None => [] end)) in Hx. subst x.
    rewrite step by reflexivity. reflexivity.
  - apply (f_equal (fun o => match o with Some v => v | None => [] end)) in Hx. subst x.
    destruct Hb as (Hid & Ht & Hd & Hn). pose proof (overhead_eq d). pose proof (mtype_small t).
    pose proof (secs_small _ Ht).
    rewrite step by reflexivity. cbn [N.eqb Pos.eqb]. unfold parse_clove, len.
    rewrite <- !app_assoc. pstep ltac:(apply be2_app; lia).
    pstep ltac:(apply delivery_roundtrip; exact Hd).
    pnum. pnum. pnum. rewrite (opt_step _ _ _ _ (mtype_round t)).
    pstep ltac:(apply take_app; lia).
    unfold ret. cbn [received]. now rewrite whole_seconds_eq.
  - discriminate.
Qed.

Lemma pad_roundtrip f p rest :
  N.of_nat (length p) < 2 ^ 16 -> parse_block f (unknown_block 254 p ++ rest) = Some (BPadding p, rest).
Proof.
  intros H. unfold unknown_block. rewrite <- !app_assoc.
  destruct f; cbn [parse_block]; pnum; cbn [N.eqb Pos.eqb]; unfold parse_padding; pnum;
    (pstep ltac:(apply take_app; lia)); reflexivity.
Qed.

Lemma unknown_skipped f t body rest :
  unknown_type t -> N.of_nat (length body) < 2 ^ 16 ->
  parse_block (S f) (unknown_block t body ++ rest) = parse_block f rest.
Proof.
  intros [H1 H2] H. unfold unknown_block. rewrite <- !app_assoc. cbn [parse_block]. cbn in H2.
  pnum.
  replace (t =? 0) with false by lia. replace (t =? 11) with false by lia.
  replace (t =? 254) with false by lia. replace (t =? 7) with false by lia.
  replace (t =? 9) with false by lia. replace (t =? 8) with false by lia.
  pnum. pstep ltac:(apply take_app; lia). reflexivity.
Qed.

(** Enough fuel is always enough. *)
Lemma parse_block_fuel : forall n f g i,
  (length i <= n)%nat -> (length i <= f)%nat -> (length i <= g)%nat ->
  parse_block f i = parse_block g i.
Proof.
  induction n as [|n IH]; intros f g i Hn Hf Hg.
  - destruct i; [|cbn in Hn; lia]. destruct f, g; reflexivity.
  - assert (Hs : forall h, (length i <= h)%nat -> parse_block h i =
      (t <- be_uint 1 ;;
       if t =? 0 then parse_date_time
       else if t =? 11 then parse_clove
       else if t =? 254 then parse_padding
       else if t =? 7 then parse_next_key
       else if t =? 9 then parse_ack_request
       else if t =? 8 then parse_ack
       else
         size <- be_uint 2 ;;
         _ <- take (N.to_nat size) ;;
         fun r => parse_block (length r) r) i).
    { intros h Hh. destruct h; cbn [parse_block].
      - destruct i; [reflexivity|cbn in Hh; lia].
      - unfold bind at 1. unfold bind at 3.
        destruct (be_uint 1 i) as [[t r1]|] eqn:E1; [|reflexivity].
        apply be_uint_length in E1.
        repeat (match goal with |- context [if ?b then _ else _] => destruct b end; [reflexivity|]).
        unfold bind.
        destruct (be_uint 2 r1) as [[s r2]|] eqn:E2; [|reflexivity].
        apply be_uint_length in E2.
        destruct (take (N.to_nat s) r2) as [[q r3]|] eqn:E3; [|reflexivity].
        apply take_inv in E3 as [-> E3]. rewrite app_length in *.
        apply IH; lia. }
    rewrite (Hs f), (Hs g) by easy. reflexivity.
Qed.

Lemma ser_block_pos b x : ser_block b = Some x -> (1 <= length x)%nat.
Proof.
  intros H.
  assert (P : forall t y, (1 <= length (be_bytes 1 t ++ y))%nat)
    by (intros; rewrite app_length, be_bytes_length; lia).
  destruct b as [t|[id [k|] [|]|id [k|]]|l| |t id tm d body|p]; cbn [ser_block ser_next_key] in H;
    try discriminate;
    apply (f_equal (fun o => match o with Some v => v | None => [] end)) in H; subst x; apply P.
Qed.

Lemma item_wire_pos x w : item_wire x = Some w -> (1 <= length w)%nat.
Proof.
  destruct x; cbn [item_wire].
  - apply ser_block_pos.
  - intros [= <-]. cbn. lia.
  - intros [= <-]. unfold unknown_block. rewrite app_length, be_bytes_length. lia.
Qed.

Lemma item_wire_some x : item_ok x -> exists w, item_wire x = Some w.
Proof.
  destruct x as [b|p|t body]; cbn [item_ok item_wire]; intros H; [|eauto|eauto].
  destruct b as [t|[id [k|] [|]|id [k|]]|l| |t id tm d body|p]; cbn [ser_block ser_next_key];
    try (eexists; reflexivity); cbn in H.
  - destruct H as (_ & _ & [H|H]); congruence.
  - easy.
Qed.
Lemma items_wire_some l : Forall item_ok l -> exists w, items_wire l = Some w.
Proof.
  induction 1 as [|x l Hx Hl [w IH]]; cbn [items_wire]; [eauto|].
  destruct (item_wire_some x Hx) as [v ->]. rewrite IH. eauto.
Qed.
Lemma items_wire_pos x l w : items_wire (x :: l) = Some w -> (1 <= length w)%nat.
Proof.
  cbn [items_wire]. destruct (item_wire x) as [a|] eqn:E; [|discriminate].
  destruct (items_wire l); [|discriminate]. intros [= <-]. rewrite app_length.
  apply item_wire_pos in E. lia.
Qed.

(** The result of parsing a sequence of items whose last one is understood. *)
Lemma items_parse : forall l w fuel acc last,
  Forall item_ok (l ++ [last]) -> understood last ->
  items_wire (l ++ [last]) = Some w -> (length w <= fuel)%nat ->
  parse_inner fuel w acc = Some (acc ++ flat_map item_seen (l ++ [last])).
Proof.
  induction l as [|x l IH]; intros w fuel acc last Hok Hu Hw Hf.
  - cbn [app items_wire] in *. inversion Hok as [|? ? Ho _]; subst.
    destruct (item_wire last) as [a|] eqn:E; [|discriminate].
    assert (w = a ++ []) as -> by congruence.
    assert (P : exists b, parse_block (length (a ++ [])) (a ++ []) = Some (b, []) /\
                          item_seen last = [b]).
    { destruct last as [b|p|t body]; cbn [item_wire item_ok item_seen] in *.
      - exists (received b). split; [|easy]. now apply block_roundtrip.
      - exists (BPadding p). split; [|easy]. injection E as <-. now apply pad_roundtrip.
      - easy. }
    destruct P as (b & P1 & P2).
    destruct fuel; cbn [parse_inner]; rewrite P1; cbn [flat_map app]; rewrite P2; reflexivity.
  - cbn [app items_wire] in Hw. inversion Hok as [|? ? Hx Hl]; subst. cbn [app].
    destruct (item_wire x) as [a|] eqn:E; [|discriminate].
    destruct (items_wire (l ++ [last])) as [w'|] eqn:E'; [|discriminate].
    assert (w = a ++ w') as -> by congruence.
    pose proof (item_wire_pos _ _ E) as Pa. rewrite app_length in Hf.
    assert (Pw : (1 <= length w')%nat).
    { destruct l as [|y l]; cbn [app] in E'; eapply items_wire_pos; exact E'. }
    destruct x as [b|p|t body]; cbn [item_wire item_ok] in *.
    + destruct fuel as [|f]; [lia|]. cbn [parse_inner].
      rewrite (block_roundtrip _ _ _ w' Hx E).
      destruct w' as [|y w']; [cbn in Pw; lia|].
      rewrite (IH (y :: w') f (acc ++ [received b]) last) by (auto; lia).
      cbn [flat_map item_seen app]. rewrite <- app_assoc. reflexivity.
    + injection E as <-. destruct fuel as [|f]; [lia|]. cbn [parse_inner].
      rewrite (pad_roundtrip _ _ w' Hx).
      destruct w' as [|y w']; [cbn in Pw; lia|].
      rewrite (IH (y :: w') f (acc ++ [BPadding p]) last) by (auto; lia).
      cbn [flat_map item_seen app]. rewrite <- app_assoc. reflexivity.
    + injection E as <-. cbn [flat_map item_seen app].
      rewrite <- (IH w' fuel acc last) by (auto; lia).
      destruct Hx as [Ht Hb].
      assert (Q : parse_block (length (unknown_block t body ++ w')) (unknown_block t body ++ w')
                  = parse_block (length w') w').
      { rewrite app_length.
        replace (length (unknown_block t body) + length w')%nat
          with (S (length (unknown_block t body) - 1 + length w')) by lia.
        rewrite unknown_skipped by easy. apply (parse_block_fuel (length w')); lia. }
      destruct fuel; cbn [parse_inner]; rewrite Q; reflexivity.
Qed.

Lemma items_parse_trailing : forall l w fuel acc t body,
  Forall item_ok (l ++ [Unknown t body]) ->
  items_wire (l ++ [Unknown t body]) = Some w ->
  parse_inner fuel w acc = None.
Proof.
  induction l as [|x l IH]; intros w fuel acc t body Hok Hw.
  - cbn [app items_wire item_wire] in *. inversion Hok as [|? ? Ho _]; subst.
    assert (w = unknown_block t body ++ []) as -> by congruence.
    assert (Q : parse_block (length (unknown_block t body ++ [])) (unknown_block t body ++ []) = None).
    { replace (length (unknown_block t body ++ [])) with (S (length body + 2)).
      - destruct Ho as [Ht Hb]. rewrite unknown_skipped by easy.
        destruct (length body + 2)%nat; reflexivity.
      - unfold unknown_block. rewrite !app_length, !be_bytes_length. cbn. lia. }
    destruct fuel; cbn [parse_inner]; rewrite Q; reflexivity.
  - cbn [app items_wire] in Hw. inversion Hok as [|? ? Hx Hl]; subst.
    destruct (item_wire x) as [a|] eqn:E; [|discriminate].
    destruct (items_wire (l ++ [Unknown t body])) as [w'|] eqn:E'; [|discriminate].
    assert (w = a ++ w') as -> by congruence.
    assert (Pw : (1 <= length w')%nat).
    { destruct l as [|y l]; cbn [app] in E'; eapply items_wire_pos; exact E'. }
    destruct x as [b|p|t' body']; cbn [item_wire item_ok] in *.
    + destruct fuel as [|f]; cbn [parse_inner]; rewrite (block_roundtrip _ _ _ w' Hx E);
      (destruct w' as [|y w']; [cbn in Pw; lia|]); [reflexivity|].
      exact (IH _ _ _ _ _ Hl E').
    + injection E as <-. destruct fuel as [|f]; cbn [parse_inner]; rewrite (pad_roundtrip _ _ w' Hx);
      (destruct w' as [|y w']; [cbn in Pw; lia|]); [reflexivity|].
      exact (IH _ _ _ _ _ Hl E').
    + injection E as <-. rewrite <- (IH w' fuel acc t body Hl E').
      destruct Hx as [Ht Hb].
      assert (Q : parse_block (length (unknown_block t' body' ++ w')) (unknown_block t' body' ++ w')
                  = parse_block (length w') w').
      { rewrite app_length.
        pose proof (item_wire_pos (Unknown t' body') _ eq_refl).
        replace (length (unknown_block t' body') + length w')%nat
          with (S (length (unknown_block t' body') - 1 + length w')) by lia.
        rewrite unknown_skipped by easy. apply (parse_block_fuel (length w')); lia. }
      destruct fuel; cbn [parse_inner]; rewrite Q; reflexivity.
Qed.

(** The builder is the wire format of known blocks. *)
Lemma build_items l : build_garlic l = items_wire (map Known l).
Proof. induction l; cbn [build_garlic items_wire map item_wire]; [easy|]. now rewrite IHl. Qed.

Lemma garlic_roundtrip l :
  Forall block_ok l -> l <> [] ->
  exists w, build_garlic l = Some w /\ parse_garlic w = Some (map received l).
Proof.
  intros Hok Hn. rewrite build_items.
  destruct (items_wire_some (map Known l)) as [w Hw].
  { apply Forall_map. exact Hok. }
  exists w. split; [easy|]. unfold parse_garlic.
  destruct (exists_last Hn) as (l' & b & ->).
  rewrite map_app in Hw. cbn [map] in Hw.
  rewrite (items_parse (map Known l') w (length w) [] (Known b)); cbn [understood]; auto.
  - cbn [app]. f_equal. rewrite flat_map_app, map_app. f_equal.
    clear. induction l'; cbn; [easy|]. now rewrite IHl'.
  - change [Known b] with (map Known [b]). rewrite <- map_app. apply Forall_map. exact Hok.
Qed.

(** *** variable build record *)

Lemma var_record_parse v rk riv res times m padding :
  vr_tunnel v < 2 ^ 32 -> vr_next_tunnel v < 2 ^ 32 -> hash_ok (vr_next_router v) ->
  length (vr_layer v) = 32%nat -> length (vr_iv v) = 32%nat -> vr_next_msg v < 2 ^ 32 ->
  length rk = 32%nat -> length riv = 16%nat -> length res = 3%nat -> length times = 8%nat ->
  map_ok m -> N.of_nat (map_size m) < 65536 ->
  parse_var_record (var_wire v rk riv res times (ser_options m) padding) =
  if (170 + length (ser_options m) <=? length padding)%nat
  then Some (v, skipn (170 + length (ser_options m)) padding) else None.
Proof.
  intros H1 H2 H3 H4 H5 H6 H7 H8 H9 H10 Hm Hsz. unfold parse_var_record.
  set (o := ser_options m).
  assert (L : length (var_wire v rk riv res times o padding) = (170 + length o + length padding)%nat).
  { unfold var_wire. rewrite !app_length, !be_bytes_length. unfold hash_ok in H3. lia. }
  rewrite L. unfold var_wire.
  assert (role_u8 (vr_role v) < 256) by (destruct (vr_role v); cbn; lia).
  assert (T : exists t1 t2, times = t1 ++ t2 /\ length t1 = 4%nat /\ length t2 = 4%nat).
  { exists (firstn 4 times), (skipn 4 times). rewrite firstn_skipn, firstn_length, skipn_length.
    repeat apply conj; [reflexivity|lia|lia]. }
  destruct T as (t1 & t2 & -> & L1 & L2). rewrite <- (app_assoc t1).
  assert (U : forall t r, length t = 4%nat -> be_uint 4 (t ++ r) = Some (be_val t, r)).
  { intros t r Ht. unfold be_uint. now rewrite take_app. }
  pnum. pnum. pstep ltac:(apply take_app; exact H3). pstep ltac:(apply take_app; exact H4).
  pstep ltac:(apply take_app; exact H5). pstep ltac:(apply take_app; exact H7).
  pstep ltac:(apply take_app; exact H8). pnum. pstep ltac:(apply take_app; exact H9).
  pstep ltac:(apply U; exact L1). pstep ltac:(apply U; exact L2). pnum.
  pstep ltac:(apply parse_multi_ser; assumption).
  unfold bind at 1. unfold take.
  replace (170 + length o + length padding - length padding)%nat with (170 + length o)%nat by lia.
  destruct (170 + length o <=? length padding)%nat; [|reflexivity].
  rewrite (opt_step _ _ _ _ (role_round (vr_role v))). unfold ret. now destruct v.
Qed.
