(** Proofs for the primitive structures. *)
From Coq Require Import List NArith Bool Lia Arith ZArith ZifyBool ZifyNat ZifyN Sorted.
From Verif Require Import ListUtil Bytes PrimModel PrimSpec.
Import ListNotations.
Open Scope N_scope.
Open Scope parser_scope.
#[local] Opaque be_bytes be_uint take.

(** ** UTF-8 *)
Lemma rng_spec lo hi b : rng lo hi b = true <-> lo <= b <= hi.
Proof. unfold rng. lia. Qed.

Lemma utf8_enc_ok c rest : scalar c -> utf8_ok (utf8_enc c ++ rest) = utf8_ok rest.
Proof.
  intros Hc. unfold utf8_enc.
  assert (H1 := N.div_mod c 64 ltac:(lia)). assert (H2 := N.mod_lt c 64 ltac:(lia)).
  assert (H3 := N.div_mod (c / 64) 64 ltac:(lia)).
  assert (H4 := N.mod_lt (c / 64) 64 ltac:(lia)).
  assert (H5 := N.div_mod (c / 4096) 64 ltac:(lia)).
  assert (H6 := N.mod_lt (c / 4096) 64 ltac:(lia)).
  assert (E1 : c / 4096 = c / 64 / 64) by (rewrite N.div_div by lia; reflexivity).
  assert (E2 : c / 262144 = c / 4096 / 64) by (rewrite N.div_div by lia; reflexivity).
  rewrite <- E1 in H3. rewrite <- E2 in H5.
  set (q1 := c / 64) in *. set (q2 := c / 4096) in *. set (q3 := c / 262144) in *.
  set (m0 := c mod 64) in *. set (m1 := q1 mod 64) in *. set (m2 := q2 mod 64) in *.
  clearbody q1 q2 q3 m0 m1 m2. clear E1 E2. unfold scalar in Hc.
  destruct (N.ltb_spec c 128).
  { cbn [app utf8_ok]. destruct (N.leb_spec c 127); [reflexivity|lia]. }
  destruct (N.ltb_spec c 2048).
  { cbn [app utf8_ok]. destruct (N.leb_spec (192 + q1) 127); [lia|].
    replace (rng 194 223 (192 + q1)) with true by (symmetry; apply rng_spec; lia).
    replace (rng 128 191 (128 + m0)) with true by (symmetry; apply rng_spec; lia).
    reflexivity. }
  destruct (N.ltb_spec c 65536).
  { cbn [app utf8_ok]. destruct (N.leb_spec (224 + q2) 127); [lia|].
    replace (rng 194 223 (224 + q2)) with false by (unfold rng; lia).
    replace (rng 224 239 (224 + q2)) with true by (symmetry; apply rng_spec; lia).
    replace (rng 128 191 (128 + m0)) with true by (symmetry; apply rng_spec; lia).
    replace (if 224 + q2 =? 224 then rng 160 191 (128 + m1)
             else if 224 + q2 =? 237 then rng 128 159 (128 + m1) else rng 128 191 (128 + m1))
      with true; [reflexivity|].
    symmetry. destruct (N.eqb_spec (224 + q2) 224); [apply rng_spec; lia|].
    destruct (N.eqb_spec (224 + q2) 237); apply rng_spec; lia. }
  cbn [app utf8_ok]. destruct (N.leb_spec (240 + q3) 127); [lia|].
  replace (rng 194 223 (240 + q3)) with false by (unfold rng; lia).
  replace (rng 224 239 (240 + q3)) with false by (unfold rng; lia).
  replace (rng 240 244 (240 + q3)) with true by (symmetry; apply rng_spec; lia).
  replace (rng 128 191 (128 + m0)) with true by (symmetry; apply rng_spec; lia).
  replace (rng 128 191 (128 + m1)) with true by (symmetry; apply rng_spec; lia).
  replace (if 240 + q3 =? 240 then rng 144 191 (128 + m2)
           else if 240 + q3 =? 244 then rng 128 143 (128 + m2) else rng 128 191 (128 + m2))
    with true; [reflexivity|].
  symmetry. destruct (N.eqb_spec (240 + q3) 240); [apply rng_spec; lia|].
  destruct (N.eqb_spec (240 + q3) 244); apply rng_spec; lia.
Qed.

Lemma text_utf8 cs : Forall scalar cs -> utf8_ok (text cs) = true.
Proof.
  induction 1; [reflexivity|]. cbn [text flat_map]. rewrite utf8_enc_ok; auto.
Qed.

(** Decoding: whatever [utf8_ok] accepts is the encoding of scalar values. *)
Lemma enc1 a : a <= 127 -> scalar a /\ utf8_enc a = [a].
Proof. intros. unfold scalar, utf8_enc. destruct (N.ltb_spec a 128); [|lia]. split; [lia|easy]. Qed.

Lemma divmod_unique a q r c : r < a -> c = a * q + r -> c / a = q /\ c mod a = r.
Proof.
  intros. split; [symmetry; now apply N.div_unique with r | symmetry; now apply N.mod_unique with q].
Qed.

Lemma enc2 a b : 194 <= a <= 223 -> 128 <= b <= 191 ->
  exists c, scalar c /\ utf8_enc c = [a; b].
Proof.
  intros. exists ((a - 192) * 64 + (b - 128)).
  destruct (divmod_unique 64 (a - 192) (b - 128) ((a - 192) * 64 + (b - 128))) as [E1 E2];
    [lia|lia|].
  split; [unfold scalar; lia|]. unfold utf8_enc. rewrite E1, E2.
  destruct (N.ltb_spec ((a - 192) * 64 + (b - 128)) 128); [lia|].
  destruct (N.ltb_spec ((a - 192) * 64 + (b - 128)) 2048); [|lia].
  repeat f_equal; lia.
Qed.

Lemma enc3 a b c : 224 <= a <= 239 -> 128 <= b <= 191 -> 128 <= c <= 191 ->
  (a = 224 -> 160 <= b) -> (a = 237 -> b <= 159) ->
  exists x, scalar x /\ utf8_enc x = [a; b; c].
Proof.
  intros Ha Hb Hc H0 H1. set (x := ((a - 224) * 64 + (b - 128)) * 64 + (c - 128)).
  destruct (divmod_unique 64 ((a - 224) * 64 + (b - 128)) (c - 128) x) as [E1 E2]; [lia|lia|].
  destruct (divmod_unique 64 (a - 224) (b - 128) ((a - 224) * 64 + (b - 128))) as [E3 E4];
    [lia|lia|].
  assert (E5 : x / 4096 = a - 224).
  { change 4096 with (64 * 64). rewrite <- N.div_div by lia. now rewrite E1. }
  exists x. split; [unfold scalar; lia|]. unfold utf8_enc. rewrite E5, E1, E2, E4.
  destruct (N.ltb_spec x 128); [lia|]. destruct (N.ltb_spec x 2048); [lia|].
  destruct (N.ltb_spec x 65536); [|lia]. repeat f_equal; lia.
Qed.

Lemma enc4 a b c d : 240 <= a <= 244 -> 128 <= b <= 191 -> 128 <= c <= 191 -> 128 <= d <= 191 ->
  (a = 240 -> 144 <= b) -> (a = 244 -> b <= 143) ->
  exists x, scalar x /\ utf8_enc x = [a; b; c; d].
Proof.
  intros Ha Hb Hc Hd H0 H1.
  set (y := (a - 240) * 64 + (b - 128)). set (z := y * 64 + (c - 128)).
  set (x := z * 64 + (d - 128)).
  destruct (divmod_unique 64 z (d - 128) x) as [E1 E2]; [lia|lia|].
  destruct (divmod_unique 64 y (c - 128) z) as [E3 E4]; [lia|lia|].
  destruct (divmod_unique 64 (a - 240) (b - 128) y) as [E5 E6]; [lia|lia|].
  assert (E7 : x / 4096 = y).
  { change 4096 with (64 * 64). rewrite <- N.div_div by lia. now rewrite E1. }
  assert (E8 : x / 262144 = a - 240).
  { change 262144 with (4096 * 64). rewrite <- N.div_div by lia. now rewrite E7. }
  exists x. split; [unfold scalar; lia|]. unfold utf8_enc. rewrite E8, E7, E1, E2, E4, E6.
  destruct (N.ltb_spec x 128); [lia|]. destruct (N.ltb_spec x 2048); [lia|].
  destruct (N.ltb_spec x 65536); [lia|]. repeat f_equal; lia.
Qed.

Lemma utf8_text n : forall s, (length s <= n)%nat -> utf8_ok s = true ->
  exists cs, Forall scalar cs /\ s = text cs.
Proof.
  induction n; intros s Hn H.
  { destruct s; [|cbn in Hn; lia]. exists []. split; [constructor|easy]. }
  destruct s as [|a t]; [exists []; split; [constructor|easy]|].
  cbn [utf8_ok length] in *.
  assert (K : forall u rest, a :: t = u ++ rest -> (length rest <= n)%nat ->
    utf8_ok rest = true -> (exists x, scalar x /\ utf8_enc x = u) ->
    exists cs, Forall scalar cs /\ a :: t = text cs).
  { intros u rest Eu Hl Hr (x & Hx & Ex). destruct (IHn rest Hl Hr) as (cs & Hcs & ->).
    exists (x :: cs). split; [now constructor|]. cbn [text flat_map]. now rewrite Ex, Eu. }
  destruct (N.leb_spec a 127).
  { apply (K [a] t); auto; [lia|]. exists a. now apply enc1. }
  destruct t as [|b t1]; [discriminate|]. cbn [length] in *.
  destruct (rng 194 223 a) eqn:R1.
  { apply andb_prop in H as [Hb H]. apply rng_spec in R1. apply rng_spec in Hb.
    apply (K [a; b] t1); auto; [lia|]. now apply enc2. }
  destruct t1 as [|c t2]; [discriminate|]. cbn [length] in *.
  destruct (rng 224 239 a) eqn:R2.
  { apply andb_prop in H as [H Hr]. apply andb_prop in H as [Hb Hc].
    apply rng_spec in R2. apply rng_spec in Hc.
    apply (K [a; b; c] t2); auto; [lia|].
    destruct (N.eqb_spec a 224); [apply rng_spec in Hb; apply enc3; lia|].
    destruct (N.eqb_spec a 237); apply rng_spec in Hb; apply enc3; lia. }
  destruct t2 as [|d t3]; [discriminate|]. cbn [length] in *.
  apply andb_prop in H as [H Hr]. apply andb_prop in H as [H Hd].
  apply andb_prop in H as [H Hc]. apply andb_prop in H as [Ha Hb].
  apply rng_spec in Ha. apply rng_spec in Hc. apply rng_spec in Hd.
  apply (K [a; b; c; d] t3); auto; [lia|].
  destruct (N.eqb_spec a 240); [apply rng_spec in Hb; apply enc4; lia|].
  destruct (N.eqb_spec a 244); apply rng_spec in Hb; apply enc4; lia.
Qed.

(** ** Strings *)
Lemma len_length s : len s = N.of_nat (length s).
Proof. reflexivity. Qed.

Lemma parse_ser_str s r : str_ok s -> parse_str (ser_str s ++ r) = Some (s, r).
Proof.
  intros [(cs & Hcs & ->) Hl]. unfold parse_str, ser_str. rewrite <- app_assoc.
  pstep ltac:(apply be1_app; unfold len; lia).
  pstep ltac:(apply take_app; unfold len; lia).
  rewrite guard_step by (now apply text_utf8). reflexivity.
Qed.

Lemma parse_str_inv i s r :
  bytes_ok i -> parse_str i = Some (s, r) -> i = ser_str s ++ r /\ str_ok s /\ bytes_ok r.
Proof.
  intros Hi H. unfold parse_str in H.
  apply bind_inv in H as (n & r1 & H1 & H). apply bind_inv in H as (s' & r2 & H2 & H).
  apply bind_inv in H as ([] & r3 & H3 & H). apply ret_inv in H as [-> ->].
  apply guard_inv in H3 as [Hu ->].
  apply be_uint_inv in H1 as (-> & Hn & Hr1); auto.
  apply take_inv in H2 as [-> Hl]. apply bytes_ok_app in Hr1 as [Hs Hr].
  change (256 ^ N.of_nat 1) with 256 in Hn.
  unfold ser_str. replace (len s') with n by (unfold len; lia). rewrite <- app_assoc.
  split; [easy|]. split; [|easy]. split; [|lia]. now apply utf8_text with (length s').
Qed.

(** Length over 255: the first byte wraps and the string does not come back. *)
Lemma ser_str_len s : length (ser_str s) = S (length s).
Proof. unfold ser_str. now rewrite app_length, be_bytes_length. Qed.

Lemma ascii_ok l : Forall (fun c => c < 128) l -> (length l <= 255)%nat -> str_ok l.
Proof.
  intros H Hl. split; [|assumption]. exists l. split.
  - revert H. apply Forall_impl. unfold scalar. intros; lia.
  - clear Hl. induction H as [|x l Hx H IH]; [reflexivity|]. cbn [text flat_map]. unfold utf8_enc.
    destruct (N.ltb_spec x 128); [|lia]. cbn [app]. f_equal. exact IH.
Qed.

(** ** Mappings *)
Lemma parse_ser_mapping m r :
  str_ok (fst m) -> str_ok (snd m) -> parse_mapping (ser_mapping m ++ r) = Some (m, r).
Proof.
  intros Hk Hv. unfold parse_mapping, ser_mapping. rewrite <- !app_assoc.
  rewrite (bind_step _ _ _ _ _ (parse_ser_str _ _ Hk)). cbn [app].
  rewrite (bind_step _ _ _ _ _ (be_uint1_cons _ _)).
  rewrite (bind_step _ _ _ _ _ (parse_ser_str _ _ Hv)). cbn [app].
  rewrite (bind_step _ _ _ _ _ (be_uint1_cons _ _)). now destruct m.
Qed.

Lemma ser_mapping_len m : len (ser_mapping m) = mapping_len m.
Proof.
  unfold ser_mapping, mapping_len, len. rewrite !app_length, !ser_str_len. cbn [length]. lia.
Qed.

Lemma parse_mapping_shrinks i m r : parse_mapping i = Some (m, r) -> (length r < length i)%nat.
Proof.
  intros H. unfold parse_mapping in H.
  apply bind_inv in H as (k & r1 & H1 & H). apply bind_inv in H as (x & r2 & H2 & H).
  apply bind_inv in H as (v & r3 & H3 & H). apply bind_inv in H as (y & r4 & H4 & H).
  apply ret_inv in H as [_ ->].
  unfold parse_str in H1, H3.
  apply bind_inv in H1 as (n1 & q1 & A1 & H1). apply bind_inv in H1 as (s1 & q2 & A2 & H1).
  apply bind_inv in H1 as ([] & q3 & A3 & H1). apply ret_inv in H1 as [_ ->].
  apply guard_inv in A3 as [_ ->].
  apply bind_inv in H3 as (n2 & t1 & B1 & H3). apply bind_inv in H3 as (s2 & t2 & B2 & H3).
  apply bind_inv in H3 as ([] & t3 & B3 & H3). apply ret_inv in H3 as [_ ->].
  apply guard_inv in B3 as [_ ->].
  apply be_uint_length in A1, H2, B1, H4. apply take_inv in A2 as [-> _]. apply take_inv in B2 as [-> _].
  rewrite app_length in *. lia.
Qed.
#[local] Opaque be_uint take.

Lemma guard_consumes b : consumes (guard b).
Proof. intros i x r H. apply guard_inv in H as [_ ->]. now exists []. Qed.
Lemma parse_str_consumes : consumes parse_str.
Proof.
  unfold parse_str. apply bind_consumes; [apply be_uint_consumes|intros].
  apply bind_consumes; [apply take_consumes|intros].
  apply bind_consumes; [apply guard_consumes|intros]. apply ret_consumes.
Qed.
Lemma parse_mapping_consumes : consumes parse_mapping.
Proof.
  unfold parse_mapping.
  repeat (apply bind_consumes; [first [apply be_uint_consumes|apply parse_str_consumes]|intros]).
  apply ret_consumes.
Qed.
Lemma parse_mappings_consumes f : forall n acc, consumes (parse_mappings f n acc).
Proof.
  induction f; intros n acc i x r; cbn [parse_mappings]; destruct (n =? 0); try discriminate.
  - intros H. injection H as _ <-. now exists [].
  - intros H. injection H as _ <-. now exists [].
  - destruct (parse_mapping i) as [[m q]|] eqn:E; [|discriminate]. intros H.
    apply parse_mapping_consumes in E as [a ->]. apply IHf in H as [b ->].
    exists (a ++ b). now rewrite app_assoc.
Qed.
Lemma parse_multi_consumes : consumes parse_multi.
Proof.
  intros i x r. unfold parse_multi. destruct i.
  - intros H. injection H as _ <-. now exists [].
  - intros H. apply bind_inv in H as (k & q & H1 & H). cbv beta in H.
    apply be_uint_consumes in H1 as [a ->]. apply parse_mappings_consumes in H as [b ->].
    exists (a ++ b). now rewrite app_assoc.
Qed.

(** The loop never runs out of fuel: more fuel than input bytes changes nothing. *)
Lemma parse_mappings_fuel f : forall g n acc i,
  (length i <= f)%nat -> (f <= g)%nat ->
  parse_mappings f n acc i = parse_mappings g n acc i.
Proof.
  induction f; intros g n acc i Hf Hg.
  - destruct i; [|cbn in Hf; lia].
    assert (E : parse_mapping [] = None) by reflexivity.
    destruct g; [reflexivity|]. cbn [parse_mappings]. rewrite E. now destruct (n =? 0).
  - destruct g; [lia|]. cbn [parse_mappings]. destruct (n =? 0); [reflexivity|].
    destruct (parse_mapping i) as [[m r]|] eqn:E; [|reflexivity].
    apply parse_mapping_shrinks in E. apply IHf; lia.
Qed.

Lemma map_size_ser m : length (ser_options m) = map_size m.
Proof.
  induction m as [|kv m]; [reflexivity|]. unfold ser_options in *. cbn [flat_map map_size fold_right].
  rewrite app_length, IHm.
  assert (E := ser_mapping_len kv). unfold len, mapping_len in E. unfold map_size, len in *. lia.
Qed.

Lemma parse_mappings_ser m : forall acc r f,
  map_ok m -> (length (ser_options m ++ r) <= f)%nat ->
  parse_mappings f (N.of_nat (length (ser_options m))) acc (ser_options m ++ r)
  = Some (acc ++ m, r).
Proof.
  induction m as [|kv m]; intros acc r f Hm Hf.
  - cbn. destruct f; cbn; now rewrite app_nil_r.
  - inversion Hm as [|? ? [Hk Hv] Hm']; subst.
    assert (E := ser_mapping_len kv). 
    assert (B : mapping_len kv <= 514).
    { destruct Hk as [_ Hk], Hv as [_ Hv]. unfold mapping_len, len. lia. }
    assert (B' : 4 <= mapping_len kv) by (unfold mapping_len; lia).
    unfold ser_options in *. cbn [flat_map] in *. rewrite app_length in *.
    unfold len in E.
    destruct f; [rewrite app_length in Hf; lia|].
    cbn [parse_mappings].
    destruct (N.eqb_spec (N.of_nat (length (ser_mapping kv) +
                length (flat_map ser_mapping m))) 0); [lia|].
    rewrite <- app_assoc. rewrite parse_ser_mapping by auto.
    replace (N.of_nat _ - _) with (N.of_nat (length (flat_map ser_mapping m))).
    2:{ rewrite N.mod_small; lia. }
    rewrite IHm; auto. { now rewrite <- app_assoc. }
    rewrite !app_length in *. lia.
Qed.

Lemma parse_multi_ser m r :
  map_ok m -> N.of_nat (map_size m) < 65536 ->
  parse_multi (be_bytes 2 (len (ser_options m)) ++ ser_options m ++ r) = Some (m, r).
Proof.
  intros Hm Hs. rewrite <- map_size_ser in Hs.
  assert (H2 := be2_app (len (ser_options m)) (ser_options m ++ r) ltac:(unfold len; lia)).
  unfold parse_multi.
  destruct (be_bytes 2 (len (ser_options m)) ++ ser_options m ++ r) eqn:E.
  { apply (f_equal (@length N)) in E. rewrite app_length, be_bytes_length in E. cbn in E. lia. }
  rewrite (bind_step _ _ _ _ _ H2).
  unfold len. now rewrite parse_mappings_ser by auto.
Qed.

(** ** Maps *)
Lemma scmp_refl a : scmp a a = Eq.
Proof. induction a; cbn; [easy|]. now rewrite N.compare_refl. Qed.
Lemma scmp_eq a : forall b, scmp a b = Eq -> a = b.
Proof.
  induction a; intros [|y b]; cbn; try discriminate; auto.
  destruct (N.compare_spec a y); try discriminate. intros H'. now rewrite H, (IHa b).
Qed.
Lemma scmp_antisym a : forall b, scmp b a = CompOpp (scmp a b).
Proof.
  induction a; intros [|y b]; cbn; auto.
  rewrite (N.compare_antisym a y). destruct (a ?= y); cbn; auto.
Qed.
Lemma scmp_trans a : forall b c, scmp a b = Lt -> scmp b c = Lt -> scmp a c = Lt.
Proof.
  induction a; intros [|y b] [|z c]; cbn; try discriminate; auto.
  destruct (N.compare_spec a y); try discriminate; destruct (N.compare_spec y z);
    try discriminate; intros.
  - subst. rewrite N.compare_refl. now apply IHa with b.
  - subst. now rewrite (proj2 (N.compare_lt_iff _ _)).
  - subst. now rewrite (proj2 (N.compare_lt_iff _ _)).
  - now rewrite (proj2 (N.compare_lt_iff _ _)) by lia.
Qed.

Lemma mget_minsert_same k v m : mget k (minsert k v m) = Some v.
Proof.
  induction m as [|[k' v'] m]; cbn [minsert mget]; [now rewrite beq_refl|].
  destruct (scmp k k') eqn:E; cbn [mget]; rewrite ?beq_refl; auto.
  destruct (beq k k') eqn:E2; auto. apply beq_eq in E2. subst. now rewrite scmp_refl in E.
Qed.
Lemma mget_minsert_other k k0 v m : k0 <> k -> mget k0 (minsert k v m) = mget k0 m.
Proof.
  intros Hn.
  assert (Hb : beq k0 k = false) by (destruct (beq k0 k) eqn:E; auto; apply beq_eq in E; congruence).
  induction m as [|[k' v'] m]; cbn [minsert mget]; [now rewrite Hb|].
  destruct (scmp k k') eqn:E; cbn [mget]; rewrite ?Hb; auto.
  - apply scmp_eq in E. subst. now rewrite Hb.
  - now rewrite IHm.
Qed.

(** [into_hashmap]: looking a key up gives the last value listed for it. *)
Definition last_value (k : str) (l : list mapping) : option str :=
  fold_left (fun a kv => if beq k (fst kv) then Some (snd kv) else a) l None.
Lemma into_hashmap_get k l : mget k (into_hashmap l) = last_value k l.
Proof.
  unfold into_hashmap, last_value.
  assert (G : forall l m a, mget k m = a ->
    mget k (fold_left (fun m kv => minsert (fst kv) (snd kv) m) l m) =
    fold_left (fun a kv => if beq k (fst kv) then Some (snd kv) else a) l a).
  { clear. induction l as [|kv l]; intros m a H; cbn [fold_left]; auto. apply IHl.
    destruct (beq k (fst kv)) eqn:E.
    - apply beq_eq in E. subst k. apply mget_minsert_same.
    - rewrite mget_minsert_other; auto. intros ->. now rewrite beq_refl in E. }
  now apply G.
Qed.

Lemma minsert_last k v m :
  Forall (fun a => scmp (fst a) k = Lt) m -> minsert k v m = m ++ [(k, v)].
Proof.
  induction 1 as [|[k' v'] m H]; [reflexivity|]. cbn [minsert app]. cbn [fst] in H.
  rewrite scmp_antisym, H. cbn. now rewrite IHForall.
Qed.

Lemma into_hashmap_sorted m : sorted_map m -> into_hashmap m = m.
Proof.
  intros Hs. unfold into_hashmap.
  assert (G : forall l acc, sorted_map l ->
    Forall (fun a => Forall (fun b => key_lt b a) acc) l ->
    fold_left (fun m kv => minsert (fst kv) (snd kv) m) l acc = acc ++ l).
  { clear. induction l as [|[k v] l]; intros acc Hs Ha; cbn [fold_left fst snd].
    - now rewrite app_nil_r.
    - inversion Hs; subst. inversion Ha; subst. rewrite minsert_last by auto.
      rewrite IHl; auto. { now rewrite <- app_assoc. }
      rewrite Forall_forall in *. intros x Hx. apply Forall_app. split; auto. }
  apply (G m []); auto. rewrite Forall_forall. intros. constructor.
Qed.

(** ** Destinations *)
Section Ext.
Variable e : ext.

Lemma slice_app_last a b (x y : bytes) :
  length x = a -> length (x ++ y) = b -> slice a b (x ++ y) = y.
Proof.
  intros Ha Hb. unfold slice. rewrite skipn_app, skipn_all2, Ha, Nat.sub_diag by lia. cbn.
  apply firstn_all2. rewrite app_length in Hb. lia.
Qed.

Lemma dest_new_parses padding key r :
  length padding = 352%nat -> length key = 32%nat -> ed_valid e key = true ->
  parse_dest e (ser_dest (dest_new e padding key) ++ r) = Some (dest_new e padding key, r).
Proof.
  intros Hp Hk Hv. unfold parse_dest, ser_dest, dest_new. cbn [d_serialized].
  set (s := padding ++ key ++ _).
  assert (Hs : length s = 391%nat).
  { unfold s. rewrite !app_length, !be_bytes_length. lia. }
  rewrite app_length. destruct (Nat.ltb_spec (length s + length r) 387); [lia|].
  assert (E : s ++ r = (padding ++ key) ++ be_bytes 1 5 ++ be_bytes 2 4 ++ be_bytes 2 7 ++
                       be_bytes 2 0 ++ r).
  { unfold s. now rewrite <- !app_assoc. }
  assert (Hf : firstn 391 (s ++ r) = s) by (now apply firstn_app_n).
  pstep ltac:(rewrite E; apply take_app; rewrite app_length; lia).
  pstep ltac:(apply be1_app; lia).
  pstep ltac:(apply be2_app; lia).
  assert (K : dest_key e (padding ++ key) 5 4 (be_bytes 2 7 ++ be_bytes 2 0 ++ r)
              = Some ((Ed25519 key, 391%nat), r)).
  { unfold dest_key. cbn [N.eqb Pos.eqb andb].
    pstep ltac:(apply be2_app; lia).
    pstep ltac:(apply be2_app; lia). cbn [N.eqb Pos.eqb].
    rewrite (slice_app_last 352 384) by (rewrite ?app_length; lia).
    now rewrite guard_step. }
  rewrite (bind_step _ _ _ _ _ K). rewrite Hf. reflexivity.
Qed.

Lemma dest_key_consumes initial kind clen : consumes (dest_key e initial kind clen).
Proof.
  unfold dest_key.
  assert (G : forall b, consumes (guard b)).
  { intros b i x r H. apply guard_inv in H as [_ ->]. now exists []. }
  assert (F : forall A, consumes (@fail A)) by (intros A i x r H; discriminate).
  repeat first [ apply bind_consumes; [first [apply G | apply be_uint_consumes]|intros ?]
               | apply ret_consumes | apply F | match goal with
                 |- consumes (if ?b then _ else _) => destruct b end ].
Qed.

(** Everything a successful destination parse implies. *)
Lemma dest_key_inv initial kind clen i k dl r :
  dest_key e initial kind clen i = Some ((k, dl), r) ->
  exists a, i = a ++ r /\ dl = (387 + length a)%nat /\
    (dl = match k with Dsa _ => 387%nat | _ => 391%nat end) /\
    forall r', dest_key e initial kind clen (a ++ r') = Some ((k, dl), r').
Proof.
  unfold dest_key. intros H.
  destruct (kind =? 0).
  { apply bind_inv in H as ([] & r1 & H1 & H). apply ret_inv in H as [H ->].
    apply guard_inv in H1 as [Hg ->]. injection H as -> ->.
    exists []. repeat apply conj; auto. intros. now rewrite guard_step. }
  destruct ((kind =? 5) && (clen =? 4)); [|discriminate].
  apply bind_inv in H as (sk & r1 & H1 & H). apply bind_inv in H as (pk & r2 & H2 & H).
  apply be_uint_split in H1 as (a & La & -> & Pa). apply be_uint_split in H2 as (b & Lb & -> & Pb).
  assert (K : forall vk b0, (bind (guard b0) (fun _ => ret (vk, 391%nat))) r2 = Some ((k, dl), r) ->
    k = vk /\ dl = 391%nat /\ r = r2 /\ b0 = true).
  { intros vk b0 G. apply bind_inv in G as ([] & r3 & G1 & G). apply ret_inv in G as [G ->].
    apply guard_inv in G1 as [G1 ->]. injection G as -> ->. auto. }
  destruct (N.eqb_spec sk 7); [|destruct (N.eqb_spec sk 1); [|discriminate]].
  - apply K in H as (-> & -> & -> & Hb). exists (a ++ b). rewrite <- app_assoc, app_length.
    repeat apply conj; auto; [lia|]. intros. rewrite <- app_assoc.
    pstep ltac:(apply Pa). pstep ltac:(apply Pb). subst sk. cbn [N.eqb Pos.eqb].
    now rewrite guard_step.
  - apply K in H as (-> & -> & -> & Hb). exists (a ++ b). rewrite <- app_assoc, app_length.
    repeat apply conj; auto; [lia|]. intros. rewrite <- app_assoc.
    pstep ltac:(apply Pa). pstep ltac:(apply Pb). subst sk. cbn [N.eqb Pos.eqb].
    now rewrite guard_step.
Qed.

Lemma parse_dest_inv i d r :
  parse_dest e i = Some (d, r) ->
  i = ser_dest d ++ r /\ d_hash d = sha256 e (ser_dest d) /\
  length (ser_dest d) = dest_len d /\ dest_ok e d.
Proof.
  unfold parse_dest. destruct (Nat.ltb_spec (length i) 387); [discriminate|]. intros H0.
  apply bind_inv in H0 as (initial & r1 & H1 & H0). apply bind_inv in H0 as (kind & r2 & H2 & H0).
  apply bind_inv in H0 as (clen & r3 & H3 & H0).
  apply bind_inv in H0 as ([k dl] & r4 & H4 & H0). apply ret_inv in H0 as [-> ->].
  apply take_inv in H1 as [E1 L1].
  apply be_uint_split in H2 as (a & La & -> & Pa). apply be_uint_split in H3 as (b & Lb & -> & Pb).
  destruct (dest_key_inv _ _ _ _ _ _ _ H4) as (c & -> & Edl & Edk & Hc).
  set (s := initial ++ a ++ b ++ c).
  assert (Ls : length s = dl) by (unfold s; rewrite !app_length; lia).
  assert (Ei : i = s ++ r4) by (unfold s; rewrite <- !app_assoc; exact E1).
  assert (Ef : forall r', firstn dl (s ++ r') = s) by (intros; now apply firstn_app_n).
  rewrite Ei, Ef. unfold ser_dest, dest_len, dest_ok. cbn [d_serialized d_hash d_key].
  repeat apply conj; auto.
  - rewrite Ls, Edk. now destruct k.
  - intros r'. unfold parse_dest, ser_dest. cbn [d_serialized].
    destruct (Nat.ltb_spec (length (s ++ r')) 387) as [Hlt|_].
    { rewrite app_length in Hlt. lia. }
    assert (E' : s ++ r' = initial ++ a ++ b ++ c ++ r')
      by (unfold s; now rewrite <- !app_assoc).
    pstep ltac:(rewrite E'; apply take_app; auto). pstep ltac:(apply Pa). pstep ltac:(apply Pb).
    pstep ltac:(apply Hc). cbv beta iota. unfold ret. f_equal. f_equal.
    now rewrite Ef.
Qed.

(** ** Router identities *)
Lemma slice_first n (x y : bytes) : length x = n -> slice 0 n (x ++ y) = x.
Proof. intros. unfold slice. cbn [skipn]. rewrite Nat.sub_0_r. now apply firstn_app_n. Qed.
Lemma slice_mid a b (x y z : bytes) :
  length x = a -> length (x ++ y) = b -> slice a b (x ++ y ++ z) = y.
Proof.
  intros Ha Hb. unfold slice. rewrite skipn_app, skipn_all2, Ha, Nat.sub_diag by lia.
  cbn [app skipn]. apply firstn_app_n. rewrite app_length in Hb. lia.
Qed.

Lemma parse_ser_ri r rest :
  length (ri_static r) = 32%nat -> length (ri_padding r) = 320%nat ->
  length (ri_signing r) = 32%nat -> ed_valid e (ri_signing r) = true ->
  ri_hash r = sha256 e (ser_ri r) ->
  parse_ri e (ser_ri r ++ rest) = Some (r, rest).
Proof.
  intros L1 L2 L3 Hv Hh.
  assert (Hs : length (ser_ri r) = 391%nat).
  { unfold ser_ri, ser_ri_fields. rewrite !app_length, !be_bytes_length. lia. }
  unfold parse_ri. rewrite app_length. destruct (Nat.ltb_spec (length (ser_ri r) + length rest) 391);
    [lia|].
  assert (Hf : firstn 391 (ser_ri r ++ rest) = ser_ri r) by (now apply firstn_app_n).
  rewrite Hf, <- Hh.
  assert (E : ser_ri r ++ rest = (ri_static r ++ ri_padding r ++ ri_signing r) ++
     be_bytes 1 5 ++ be_bytes 2 4 ++ be_bytes 2 7 ++ be_bytes 2 4 ++ rest).
  { unfold ser_ri, ser_ri_fields. now rewrite <- !app_assoc. }
  rewrite E.
  pstep ltac:(apply take_app; rewrite !app_length; lia).
  pnum. pnum. pnum. pnum.
  rewrite guard_step by reflexivity. rewrite guard_step by reflexivity.
  assert (S3 : slice 352 384 (ri_static r ++ ri_padding r ++ ri_signing r) = ri_signing r).
  { rewrite app_assoc. apply slice_app_last; rewrite !app_length; lia. }
  rewrite S3. rewrite guard_step by (now rewrite Hv).
  rewrite (slice_mid 32 352) by (rewrite ?app_length; lia).
  rewrite (slice_first 32) by auto. now destruct r.
Qed.

Lemma parse_ri_inv i r rest :
  bytes_ok i -> parse_ri e i = Some (r, rest) ->
  i = ser_ri r ++ rest /\ length (ri_static r) = 32%nat /\ length (ri_padding r) = 320%nat /\
  length (ri_signing r) = 32%nat /\ ed_valid e (ri_signing r) = true /\
  ri_hash r = sha256 e (ser_ri r) /\ bytes_ok rest.
Proof.
  intros Hi. unfold parse_ri. destruct (Nat.ltb_spec (length i) 391); [discriminate|]. intros H0.
  apply bind_inv in H0 as (initial & r1 & H1 & H0). apply bind_inv in H0 as (ct & r2 & H2 & H0).
  apply bind_inv in H0 as (cl & r3 & H3 & H0). apply bind_inv in H0 as (sk & r4 & H4 & H0).
  apply bind_inv in H0 as (pk & r5 & H5 & H0).
  apply bind_inv in H0 as ([] & r6 & H6 & H0). apply guard_inv in H6 as [H6 ->].
  apply bind_inv in H0 as ([] & r7 & H7 & H0). apply guard_inv in H7 as [H7 ->].
  apply bind_inv in H0 as ([] & r8 & H8 & H0). apply guard_inv in H8 as [H8 ->].
  apply ret_inv in H0 as [-> ->].
  apply andb_prop in H6 as [Ect Ecl]. apply N.eqb_eq in Ect, Ecl, H7.
  apply andb_prop in H8 as [Esk Hv]. apply N.eqb_eq in Esk. subst ct cl sk pk.
  apply take_inv in H1 as [Ei L]. rewrite Ei in Hi. apply bytes_ok_app in Hi as [Hini Hr].
  apply be_uint_inv in H2 as (-> & _ & Hr2); auto.
  apply be_uint_inv in H3 as (-> & _ & Hr3); auto.
  apply be_uint_inv in H4 as (-> & _ & Hr4); auto.
  apply be_uint_inv in H5 as (-> & _ & Hr5); auto.
  assert (Eini : initial = slice 0 32 initial ++ slice 32 352 initial ++ slice 352 384 initial).
  { unfold slice. cbn [skipn]. rewrite <- (firstn_skipn 32 initial) at 1. f_equal.
    rewrite <- (firstn_skipn 320 (skipn 32 initial)) at 1. f_equal.
    rewrite skipn_add. symmetry. apply firstn_all2. rewrite skipn_length. cbn. lia. }
  assert (Ef : firstn 391 i = ser_ri_fields (slice 0 32 initial) (slice 32 352 initial)
                                (slice 352 384 initial)).
  { rewrite Ei. unfold ser_ri_fields. 
    replace (slice 0 32 initial ++ slice 32 352 initial ++ slice 352 384 initial ++
       be_bytes 1 5 ++ be_bytes 2 4 ++ be_bytes 2 7 ++ be_bytes 2 4) with
      (initial ++ be_bytes 1 5 ++ be_bytes 2 4 ++ be_bytes 2 7 ++ be_bytes 2 4)
      by (rewrite Eini at 1; now rewrite <- !app_assoc).
    match goal with |- firstn _ ?x = ?y => replace x with (y ++ r5) by (now rewrite <- !app_assoc) end.
    apply firstn_app_n. rewrite !app_length, !be_bytes_length. lia. }
  unfold ser_ri. cbn [ri_static ri_padding ri_signing ri_hash]. rewrite Ef.
  repeat apply conj; auto.
  - rewrite Ei. unfold ser_ri_fields. rewrite Eini at 1. now rewrite <- !app_assoc.
  - unfold slice. rewrite firstn_length, skipn_length. lia.
  - unfold slice. rewrite firstn_length, skipn_length. lia.
  - unfold slice. rewrite firstn_length, skipn_length. lia.
Qed.

(** ** Router addresses and router infos *)
Lemma parse_ser_transport t r :
  parse_str (ser_transport t ++ r) =
  Some (match t with Ntcp2 => s_ntcp2 | Ssu2 => s_ssu2 end, r).
Proof.
  unfold ser_transport. apply parse_ser_str. destruct t.
  - split; [|cbn; lia]. exists s_ntcp2. split; [|reflexivity]. repeat constructor.
  - split; [|cbn; lia]. exists s_ssu2. split; [|reflexivity]. repeat constructor.
Qed.

Lemma parse_ser_ra t a r :
  ra_ok t a -> parse_ra e (ser_ra a ++ r) = Some (published_address e a, r).
Proof.
  intros (Ht & Hc & Hx & Hm & Hs & Hz). unfold parse_ra, ser_ra. rewrite <- !app_assoc.
  pnum. change (2 ^ 64) with 18446744073709551616 in Hx. pnum.
  pstep ltac:(apply parse_ser_transport).
  pstep ltac:(apply parse_multi_ser; auto).
  rewrite into_hashmap_sorted by auto. unfold published_address.
  destruct (ra_transport a); reflexivity.
Qed.

Lemma many_ser_ra l : forall rest, Forall (fun a => exists t, ra_ok t a) l ->
  many (length l) (parse_ra e) (flat_map ser_ra l ++ rest) =
  Some (map (published_address e) l, rest).
Proof.
  induction l as [|a n IH]; intros rest Hall; [reflexivity|].
  inversion Hall as [|? ? [t Ht] Hall']; subst. cbn [many length flat_map map].
  rewrite <- app_assoc. pstep ltac:(apply (parse_ser_ra t); exact Ht).
  pstep ltac:(apply IH; exact Hall'). reflexivity.
Qed.

Hypothesis Hok : ext_ok e.

Definition rinfo_ok (priv : bytes) (r : router_info) : Prop :=
  ri_ok e priv (rf_identity r) /\ rf_published r < 2 ^ 64 /\
  match rf_ntcp2 r with Some a => ra_ok Ntcp2 a | None => rf_ssu2 r <> None end /\
  match rf_ssu2 r with Some a => ra_ok Ssu2 a | None => True end /\
  map_ok (rf_options r) /\ sorted_map (rf_options r) /\
  N.of_nat (map_size (rf_options r)) < 65536.

Lemma parse_ser_rinfo priv r nid net c :
  rinfo_ok priv r -> mget s_caps (rf_options r) = Some c ->
  mget s_netid (rf_options r) = Some nid -> parse_dec 255 nid = Some net ->
  exists b, ser_rinfo e priv r = Some b /\
    exists rest, parse_rinfo e b =
      Some (mkRinfo (rf_identity r) (rf_published r)
              (option_map (published_address e) (rf_ntcp2 r))
              (option_map (published_address e) (rf_ssu2 r))
              (rf_options r) (parse_caps c) net, rest).
Proof.
  intros (Hi & Hp & Hn & Hu & Hm & Hs & Hz) Hcaps Hnid Hdec.
  destruct Hi as (L1 & L2 & E3 & Eh).
  assert (L3 : length (ri_signing (rf_identity r)) = 32%nat) by (rewrite E3; apply pub_len; auto).
  assert (Hv : ed_valid e (ri_signing (rf_identity r)) = true) by (rewrite E3; apply pub_valid; auto).
  set (n := (match rf_ntcp2 r with Some a => [a] | None => [] end ++
             match rf_ssu2 r with Some a => [a] | None => [] end)).
  set (body := ser_ri (rf_identity r) ++ be_bytes 8 (rf_published r) ++
        (be_bytes 1 (N.of_nat (length n)) ++ flat_map ser_ra n) ++ be_bytes 1 0 ++
        be_bytes 2 (len (ser_options (rf_options r))) ++ ser_options (rf_options r)).
  assert (Eb : ser_rinfo_body r = Some body).
  { unfold ser_rinfo_body, body, n. destruct (rf_ntcp2 r), (rf_ssu2 r);
      cbn [app flat_map length N.of_nat Pos.of_succ_nat Pos.succ]; rewrite ?app_nil_r; auto.
    now destruct Hn. }
  unfold ser_rinfo. rewrite Eb. eexists. split; [reflexivity|].
  exists (ed_sign e priv body). unfold parse_rinfo.
  set (sg := ed_sign e priv body).
  assert (Lsg : length sg = 64%nat) by (apply sign_len; auto).
  assert (Ef : firstn (length (body ++ sg) - 64) (body ++ sg) = body).
  { apply firstn_app_n. rewrite app_length. lia. }
  rewrite Ef.
  pstep ltac:(unfold body; rewrite <- !app_assoc; apply parse_ser_ri; auto). change (2 ^ 64) with 18446744073709551616 in Hp.
  pnum. pstep ltac:(apply be1_app; unfold n; destruct (rf_ntcp2 r), (rf_ssu2 r); cbn; lia).
  rewrite Nat2N.id.
  assert (Hall : Forall (fun a => exists t, ra_ok t a) n).
  { unfold n. destruct (rf_ntcp2 r), (rf_ssu2 r); cbn [app];
    repeat (apply Forall_cons; [eauto|]); apply Forall_nil. }
  pstep ltac:(apply many_ser_ra; exact Hall). pnum.
  pstep ltac:(apply parse_multi_ser; auto).
  rewrite into_hashmap_sorted by auto. cbv zeta. rewrite Hcaps, Hnid, Hdec.
  rewrite Lsg. cbn [Nat.eqb andb]. rewrite E3. unfold sg. rewrite sign_verify by auto.
  assert (Ead : fold_left (fun m a => add_addr a m) (map (published_address e) n) (None, None) =
    (option_map (published_address e) (rf_ntcp2 r), option_map (published_address e) (rf_ssu2 r))).
  { unfold n. destruct (rf_ntcp2 r) as [a|], (rf_ssu2 r) as [a'|];
      cbn [app map fold_left option_map].
    - destruct Hn as [E1 _], Hu as [E2 _]. unfold add_addr, published_address.
      cbn [ra_transport]. rewrite E1. cbn. rewrite E2. reflexivity.
    - destruct Hn as [E1 _]. unfold add_addr, published_address. cbn [ra_transport].
      now rewrite E1.
    - destruct Hu as [E1 _]. unfold add_addr, published_address. cbn [ra_transport].
      now rewrite E1.
    - reflexivity. }
  rewrite Ead. reflexivity.
Qed.

Lemma parse_rinfo_signed i r rest :
  bytes_ok i -> parse_rinfo e i = Some (r, rest) ->
  exists body sg, i = body ++ sg /\ length sg = 64%nat /\
    verify e (Ed25519 (ri_signing (rf_identity r))) body sg = true /\
    exists tl, body = ser_ri (rf_identity r) ++ tl.
Proof.
  intros Hi H. unfold parse_rinfo in H.
  apply bind_inv in H as (id & r1 & H1 & H). apply bind_inv in H as (pub & r2 & H2 & H).
  apply bind_inv in H as (n & r3 & H3 & H). apply bind_inv in H as (ads & r4 & H4 & H).
  apply bind_inv in H as (ps & r5 & H5 & H). apply bind_inv in H as (opts & r6 & H6 & H).
  cbv zeta in H.
  destruct (mget s_caps (into_hashmap opts)); [|discriminate].
  destruct (mget s_netid (into_hashmap opts)); [|discriminate].
  destruct (parse_dec 255 _); [|discriminate].
  destruct ((length r6 =? 64)%nat && _) eqn:E; [|discriminate].
  apply andb_prop in E as [E1 E2]. apply Nat.eqb_eq in E1.
  injection H as <- <-. cbn [rf_identity].
  assert (S1 := parse_ri_inv _ _ _ Hi H1). destruct S1 as (Ei & _).
  assert (C : exists c, r1 = c ++ r6).
  { apply be_uint_consumes in H2 as [c2 ->]. apply be_uint_consumes in H3 as [c3 ->].
    assert (exists c, r3 = c ++ r4) as [c4 ->].
    { clear -H4. revert r3 ads r4 H4. induction (N.to_nat n); intros; cbn [many] in H4.
      - apply ret_inv in H4 as [_ ->]. now exists [].
      - apply bind_inv in H4 as (a & q & A & H4). apply bind_inv in H4 as (a' & q' & A' & H4).
        apply ret_inv in H4 as [_ ->]. apply IHn0 in A' as [c' ->].
        assert (exists c, r3 = c ++ c' ++ q') as [c ->]; [|exists (c ++ c'); now rewrite <- app_assoc].
        clear -A. unfold parse_ra in A.
        apply bind_inv in A as (x1 & q1 & A1 & A). apply bind_inv in A as (x2 & q2 & A2 & A).
        apply bind_inv in A as (x3 & q3 & A3 & A). apply bind_inv in A as (x4 & q4 & A4 & A).
        destruct (transport_of x3); [|discriminate]. apply ret_inv in A as [_ ->].
        apply be_uint_consumes in A1 as [? ->]. apply be_uint_consumes in A2 as [? ->].
        apply parse_str_consumes in A3 as [? ->]. apply parse_multi_consumes in A4 as [? ->].
        eexists. now rewrite !app_assoc. }
    apply be_uint_consumes in H5 as [c5 ->]. apply parse_multi_consumes in H6 as [c6 ->].
    eexists. now rewrite !app_assoc. }
  destruct C as [c ->].
  exists (ser_ri id ++ c), r6. rewrite Ei, <- app_assoc. repeat apply conj; auto.
  - replace (ser_ri id ++ c) with (firstn (length i - 64) i); auto.
    rewrite Ei, app_assoc. apply firstn_app_n. rewrite !app_length. lia.
  - now exists c.
Qed.

(** ** Lease sets *)
Lemma ser_pubkey_parse k r :
  length k = 32%nat -> parse_pubkey (be_bytes 2 4 ++ be_bytes 2 32 ++ k ++ r) = Some (Some k, r).
Proof.
  intros L. unfold parse_pubkey. pnum. pnum. pstep ltac:(apply take_app; exact L).
  cbn [N.eqb Pos.eqb]. rewrite guard_step; [reflexivity|]. rewrite L. reflexivity.
Qed.

Lemma ser_lease2_parse l r :
  lease_ok l ->
  parse_lease2 (ser_lease2 l ++ r) =
  Some (mkLease (l_router l) (l_tunnel l) (l_expires_ms l / 1000 * 1000), r).
Proof.
  intros (L & Ht & Hx). unfold parse_lease2, ser_lease2. rewrite <- !app_assoc.
  pstep ltac:(apply take_app; exact L). change (2 ^ 32) with 4294967296 in *. pnum.
  pstep ltac:(apply be4_app; exact Hx). reflexivity.
Qed.

Lemma ser_lease_parse l r :
  length (l_router l) = 32%nat -> l_tunnel l < 2 ^ 32 -> l_expires_ms l < 2 ^ 64 ->
  parse_lease (ser_lease l ++ r) = Some (l, r).
Proof.
  intros L Ht Hx. unfold parse_lease, ser_lease. rewrite <- !app_assoc.
  pstep ltac:(apply take_app; exact L). change (2 ^ 32) with 4294967296 in *.
  change (2 ^ 64) with 18446744073709551616 in *. pnum. pnum. now destruct l.
Qed.

Lemma parse_ser_ls priv l r :
  ls_ok e priv l -> parse_ls e (ser_ls e priv l ++ r) = Some (on_the_wire l, r).
Proof.
  intros (Hd & Hk & Hx & Hp & Hnk & Hks & Hnl & Hls).
  change (2 ^ 16) with 65536 in Hx. change (2 ^ 32) with 4294967296 in Hp.
  set (h := ls_header' l) in *.
  assert (Hh : forall r, parse_lsh e (ser_lsh h ++ r) =
     Some (mkLsh (h_dest h) (N.min (h_published h + h_expires h) 4294967295) None
             (h_published h) (h_unpublished h), r)).
  { intros r'. unfold parse_lsh, ser_lsh. rewrite <- !app_assoc.
    pstep ltac:(apply Hd). pnum. pnum. pstep ltac:(apply be2_app; destruct (h_unpublished h); lia).
    change (2 ^ 32 - 1) with 4294967295.
    destruct (h_unpublished h); reflexivity. }
  unfold parse_ls, ser_ls.
  set (body := ser_ls_body l). set (sg := ed_sign e priv (3 :: body)).
  assert (Lsg : length sg = 64%nat) by (apply sign_len; auto).
  rewrite <- app_assoc.
  assert (Eb : body ++ sg ++ r = ser_lsh h ++ be_bytes 2 0 ++
     be_bytes 1 (N.of_nat (length (ls_keys l))) ++
     flat_map (fun k => be_bytes 2 4 ++ be_bytes 2 32 ++ k) (ls_keys l) ++
     be_bytes 1 (N.of_nat (length (ls_leases l))) ++ flat_map ser_lease2 (ls_leases l) ++ sg ++ r).
  { unfold body, ser_ls_body. now rewrite <- !app_assoc. }
  assert (Ef : firstn (length (body ++ sg ++ r) - length (sg ++ r)) (body ++ sg ++ r) = body).
  { apply firstn_app_n. rewrite !app_length. lia. }
  pstep ltac:(rewrite Eb; apply Hh).
  pstep ltac:(apply (parse_multi_ser [] _); [constructor|reflexivity]).
  pstep ltac:(apply be1_app; lia). rewrite Nat2N.id.
  assert (Hmk : forall ks rest, Forall (fun k : bytes => length k = 32%nat) ks ->
     many (length ks) parse_pubkey
       (flat_map (fun k => be_bytes 2 4 ++ be_bytes 2 32 ++ k) ks ++ rest) =
     Some (map Some ks, rest)).
  { clear. induction ks; intros rest H; [reflexivity|]. inversion H; subst.
    cbn [many length flat_map map]. rewrite <- !app_assoc.
    pstep ltac:(apply ser_pubkey_parse; auto). pstep ltac:(apply IHks; auto). reflexivity. }
  pstep ltac:(apply Hmk; auto).
  assert (Es : somes (map Some (ls_keys l)) = ls_keys l).
  { clear. induction (ls_keys l); cbn; [easy|]. unfold somes in *. now rewrite IHl0. }
  rewrite Es. rewrite guard_step by (destruct (ls_keys l); [cbn in Hnk; lia|reflexivity]).
  pstep ltac:(apply be1_app; lia). rewrite guard_step by lia. rewrite Nat2N.id.
  assert (Hml : forall ks rest, Forall lease_ok ks ->
     many (length ks) parse_lease2 (flat_map ser_lease2 ks ++ rest) =
     Some (map (fun x => mkLease (l_router x) (l_tunnel x) (l_expires_ms x / 1000 * 1000)) ks, rest)).
  { clear. induction ks; intros rest H; [reflexivity|]. inversion H; subst.
    cbn [many length flat_map map]. rewrite <- !app_assoc.
    pstep ltac:(apply ser_lease2_parse; auto). pstep ltac:(apply IHks; auto). reflexivity. }
  pstep ltac:(apply Hml; auto).
  rewrite Ef. cbn [h_dest h_offline]. rewrite Hk. cbn [signature_len].
  pstep ltac:(apply take_app; exact Lsg).
  rewrite guard_step by (unfold sg; apply sign_verify; auto). reflexivity.
Qed.

(** What acceptance of a lease set means. *)
Lemma parse_offline_inv key i k r :
  parse_offline e key i = Some (k, r) ->
  exists signed sg tail, i = signed ++ sg ++ r /\ verify e key signed sg = true /\
    (k = Ed25519 tail \/ k = P256 tail) /\ exists hd, signed = hd ++ tail /\ length hd = 6%nat.
Proof.
  unfold parse_offline. intros H.
  apply bind_inv in H as (x & r1 & H1 & H). apply bind_inv in H as (kind & r2 & H2 & H).
  apply bind_inv in H as ([k' kl] & r3 & H3 & H). apply bind_inv in H as (sg & r4 & H4 & H).
  apply bind_inv in H as ([] & r5 & H5 & H). apply ret_inv in H as [-> <-].
  apply guard_inv in H5 as [Hv <-].
  assert (exists a, i = a ++ r2 /\ length a = 6%nat) as (a & -> & La).
  { assert (L1 := be_uint_length _ _ _ _ H1). assert (L2 := be_uint_length _ _ _ _ H2).
    apply be_uint_consumes in H1 as [a1 ->]. apply be_uint_consumes in H2 as [a2 ->].
    exists (a1 ++ a2). rewrite <- app_assoc. split; auto. rewrite !app_length in *. lia. }
  apply take_inv in H4 as [-> Lsg].
  assert (exists b, r2 = b ++ sg ++ r /\ length b = kl /\ (k' = Ed25519 b \/ k' = P256 b))
    as (b & -> & Lb & Hk).
  { destruct (kind =? 7); [|destruct (kind =? 1); [|discriminate]];
    apply bind_inv in H3 as (b & q & A & H3); apply bind_inv in H3 as ([] & q' & A' & H3);
    apply ret_inv in H3 as [H3 ->]; apply guard_inv in A' as [_ ->]; injection H3 as -> ->;
    apply take_inv in A as [-> L]; exists b; auto. }
  exists (a ++ b), sg, b. repeat apply conj; auto.
  - now rewrite <- app_assoc.
  - replace (a ++ b) with (firstn (6 + kl) (a ++ b ++ sg ++ r)); auto.
    rewrite app_assoc. apply firstn_app_n. rewrite app_length. lia.
  - exists a. auto.
Qed.

Lemma parse_ls_inv i l r :
  parse_ls e i = Some (l, r) ->
  (1 <= length (ls_leases l) <= 16)%nat /\ ls_keys l <> [] /\
  exists signed sg, i = signed ++ sg ++ r /\
    (exists tl, signed = ser_dest (h_dest (ls_header' l)) ++ tl) /\
    match h_offline (ls_header' l) with
    | None => verify e (d_key (h_dest (ls_header' l))) (3 :: signed) sg = true
    | Some k =>
        verify e k (3 :: signed) sg = true /\
        exists cert sgc pk, verify e (d_key (h_dest (ls_header' l))) cert sgc = true /\
          (k = Ed25519 pk \/ k = P256 pk) /\ exists hd, cert = hd ++ pk /\ length hd = 6%nat
    end.
Proof.
  unfold parse_ls. intros H.
  apply bind_inv in H as (h & r1 & H1 & H). apply bind_inv in H as (opts & r2 & H2 & H).
  apply bind_inv in H as (nk & r3 & H3 & H). apply bind_inv in H as (ks & r4 & H4 & H).
  apply bind_inv in H as ([] & r5 & H5 & H). apply guard_inv in H5 as [Hk ->].
  apply bind_inv in H as (nl & r6 & H6 & H).
  apply bind_inv in H as ([] & r7 & H7 & H). apply guard_inv in H7 as [Hn ->].
  apply bind_inv in H as (ls & r8 & H8 & H). cbv beta in H.
  apply bind_inv in H as (sg & r9 & H9 & H).
  apply bind_inv in H as ([] & r10 & H10 & H). apply ret_inv in H as [-> <-].
  apply guard_inv in H10 as [Hv <-]. cbn [ls_leases ls_keys ls_header'].
  assert (CM : forall A (p : parser A) n, consumes p -> consumes (many n p)).
  { clear. intros A p n Hp. induction n; cbn [many]; [apply ret_consumes|].
    apply bind_consumes; auto. intros. apply bind_consumes; auto. intros. apply ret_consumes. }
  assert (ML : forall A (p : parser A) n i x r, many n p i = Some (x, r) -> length x = n).
  { clear. induction n; intros i x r H; cbn [many] in H.
    - now apply ret_inv in H as [-> _].
    - apply bind_inv in H as (a & q & _ & H). apply bind_inv in H as (a' & q' & H' & H).
      apply ret_inv in H as [-> _]. cbn. f_equal. eauto. }
  assert (Ll := ML _ _ _ _ _ _ H8).
  split; [lia|]. split; [now destruct (somes ks)|].
  apply take_inv in H9 as [-> Lsg].
  assert (exists d0, r1 = d0 ++ sg ++ r) as [d0 Ed0].
  { apply parse_multi_consumes in H2 as [? ->]. apply be_uint_consumes in H3 as [? ->].
    apply CM in H4 as [? ->].
    2:{ unfold parse_pubkey. repeat (apply bind_consumes; [first [apply be_uint_consumes|apply take_consumes]|intros ?]).
        match goal with |- consumes (if ?b then _ else _) => destruct b end; [|apply ret_consumes]. apply bind_consumes; [|intros; apply ret_consumes].
        apply guard_consumes. }
    apply be_uint_consumes in H6 as [? ->].
    apply CM in H8 as [? ->].
    2:{ unfold parse_lease2. repeat (apply bind_consumes; [first [apply be_uint_consumes|apply take_consumes]|intros ?]).
        apply ret_consumes. }
    eexists. now rewrite !app_assoc. }
  unfold parse_lsh in H1.
  apply bind_inv in H1 as (d & q1 & A1 & H1). apply bind_inv in H1 as (pub & q2 & A2 & H1).
  apply bind_inv in H1 as (ex & q3 & A3 & H1). apply bind_inv in H1 as (fl & q4 & A4 & H1).
  cbv zeta in H1.
  destruct (parse_dest_inv _ _ _ A1) as (Ei & _).
  assert (exists f0, q1 = f0 ++ q4) as [f0 Ef0].
  { apply be_uint_consumes in A2 as [? ->]. apply be_uint_consumes in A3 as [? ->].
    apply be_uint_consumes in A4 as [? ->]. eexists. now rewrite !app_assoc. }
  destruct (N.testbit fl 0).
  - apply bind_inv in H1 as (k & q5 & A5 & H1). apply ret_inv in H1 as [-> ->].
    cbn [h_offline h_dest] in *.
    destruct (parse_offline_inv _ _ _ _ A5) as (cert & sgc & pk & E5 & V5 & K5 & hd & C5).
    exists (ser_dest d ++ f0 ++ cert ++ sgc ++ d0), sg.
    assert (Eall : i = (ser_dest d ++ f0 ++ cert ++ sgc ++ d0) ++ sg ++ r).
    { rewrite Ei, Ef0, E5, Ed0. now rewrite <- !app_assoc. }
    rewrite Eall in Hv at 1 2.
    rewrite firstn_app_n in Hv by (rewrite !app_length; lia).
    repeat apply conj; auto; [eauto|]. exists cert, sgc, pk. eauto.
  - apply ret_inv in H1 as [-> ->]. cbn [h_offline h_dest] in *.
    exists (ser_dest d ++ f0 ++ d0), sg.
    assert (Eall : i = (ser_dest d ++ f0 ++ d0) ++ sg ++ r).
    { rewrite Ei, Ef0, Ed0. now rewrite <- !app_assoc. }
    rewrite Eall in Hv at 1 2.
    rewrite firstn_app_n in Hv by (rewrite !app_length; lia).
    repeat apply conj; auto. eauto.
Qed.
End Ext.
