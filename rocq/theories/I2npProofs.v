(** Proofs about I2npModel.v and GarlicModel.v. *)
From Coq Require Import List NArith Bool Arith Lia ZArith ZifyBool ZifyNat ZifyN.
From Verif Require Import ListUtil Bytes PrimModel PrimSpec PrimProofs I2npModel GarlicModel I2npSpec.
Import ListNotations.
Open Scope N_scope.

Lemma opt_step {A B} (o : option A) a (f : A -> parser B) i : o = Some a -> bind (opt o) f i = f a i.
Proof. intros ->. reflexivity. Qed.
Lemma opt_extends {A} (o : option A) : extends (opt o).
Proof. intros i a r x. unfold opt. destruct o; congruence. Qed.
Lemma opt_inv {A} (o : option A) i a r : opt o i = Some (a, r) -> o = Some a /\ r = i.
Proof. unfold opt. destruct o; intros; split; congruence. Qed.

Lemma mtype_round t : mtype_of (mtype_u8 t) = Some t.
Proof. destruct t; reflexivity. Qed.
Lemma mtype_inv b t : mtype_of b = Some t -> b = mtype_u8 t.
Proof.
  destruct b as [|p]; [discriminate|].
  do 5 (destruct p as [p|p|]; cbn; try discriminate; try (intros [= <-]; reflexivity)).
Qed.
Lemma mtype_small t : mtype_u8 t < 256.
Proof. destruct t; cbn; lia. Qed.
Lemma role_round r : role_of (role_u8 r) = Some r.
Proof. destruct r; reflexivity. Qed.

Lemma whole_seconds_eq x : of_secs (secs_of x) = whole_seconds x.
Proof.
  unfold of_secs, secs_of, whole_seconds.
  pose proof (N.div_mod x 1000000000 ltac:(lia)). lia.
Qed.
Lemma whole_millis_eq x : of_ms (ms_of x) = whole_millis x.
Proof.
  unfold of_ms, ms_of, whole_millis.
  pose proof (N.div_mod x 1000000 ltac:(lia)). lia.
Qed.
Lemma secs_small x : x < 1000000000 * 2 ^ 32 -> secs_of x < 4294967296.
Proof. intros. unfold secs_of. apply N.div_lt_upper_bound; lia. Qed.
Lemma ms_small x : x < 1000000 * 2 ^ 64 -> ms_of x < 18446744073709551616.
Proof. intros. unfold ms_of. apply N.div_lt_upper_bound; lia. Qed.

(** *** I2NP messages *)
Lemma short_roundtrip m rest :
  m_id m < 2 ^ 32 -> m_expiration m < 1000000000 * 2 ^ 32 ->
  (0 < length (m_payload m))%nat -> N.of_nat (length (m_payload m)) <= 65526 ->
  parse_short (build_short m ++ rest) =
  Some (mkMsg (m_type m) (m_id m) (whole_seconds (m_expiration m)) (m_payload m), rest).
Proof.
  intros Hid Hx Hp Hl. pose proof (mtype_small (m_type m)).
  pose proof (secs_small _ Hx).
  unfold parse_short, build_short, len. rewrite <- !app_assoc.
  pnum. pnum. pnum. pnum. rewrite guard_step by lia.
  pstep ltac:(apply take_app; lia).
  rewrite (opt_step _ _ _ _ (mtype_round (m_type m))).
  unfold ret. now rewrite whole_seconds_eq.
Qed.

Lemma standard_roundtrip e m rest :
  m_id m < 2 ^ 32 -> m_expiration m < 1000000 * 2 ^ 64 ->
  (0 < length (m_payload m))%nat -> N.of_nat (length (m_payload m)) <= 65535 ->
  parse_standard (build_standard e m ++ rest) =
  Some (mkMsg (m_type m) (m_id m) (whole_millis (m_expiration m)) (m_payload m), rest).
Proof.
  intros Hid Hx Hp Hl. pose proof (mtype_small (m_type m)).
  pose proof (ms_small _ Hx).
  unfold parse_standard, build_standard, len. rewrite <- !app_assoc.
  pnum. pnum. pnum. pnum.
  pstep ltac:(apply be_uint_app_mod).
  pstep ltac:(apply take_app; lia).
  rewrite guard_step by (destruct (m_payload m); [cbn in Hp; lia|reflexivity]).
  rewrite (opt_step _ _ _ _ (mtype_round (m_type m))).
  unfold ret. now rewrite whole_millis_eq.
Qed.

Lemma parse_short_extends : extends parse_short.
Proof. unfold parse_short. repeat (pextends || apply opt_extends). Qed.
Lemma parse_standard_extends : extends parse_standard.
Proof. unfold parse_standard. repeat (pextends || apply opt_extends). Qed.

Lemma build_short_length m : N.of_nat (length (build_short m)) = len_short m.
Proof. unfold build_short, len_short, len. rewrite !app_length, !be_bytes_length. lia. Qed.
Lemma build_standard_length e m : N.of_nat (length (build_standard e m)) = len_long m.
Proof. unfold build_standard, len_long, len. rewrite !app_length, !be_bytes_length. lia. Qed.

Lemma secs_of_secs x : secs_of (of_secs x) = x.
Proof. unfold secs_of, of_secs. apply N.div_mul. lia. Qed.
Lemma ms_of_ms x : ms_of (of_ms x) = x.
Proof. unfold ms_of, of_ms. apply N.div_mul. lia. Qed.

Ltac binv H := apply bind_inv in H as (? & ? & ? & H).

Lemma short_canonical i m r :
  bytes_ok i -> parse_short i = Some (m, r) ->
  i = build_short m ++ r /\ m_id m < 2 ^ 32 /\ (0 < length (m_payload m))%nat /\
  N.of_nat (length (m_payload m)) <= 65526 /\ m_expiration m < 1000000000 * 2 ^ 32.
Proof.
  intros Hi H. unfold parse_short in H.
  apply bind_inv in H as (size & i1 & E1 & H).
  apply be_uint_inv in E1 as (-> & Hs & Hi1); [|easy].
  apply bind_inv in H as (t & i2 & E2 & H).
  apply be_uint_inv in E2 as (-> & Ht & Hi2); [|easy].
  apply bind_inv in H as (id & i3 & E3 & H).
  apply be_uint_inv in E3 as (-> & Hid & Hi3); [|easy].
  apply bind_inv in H as (x & i4 & E4 & H).
  apply be_uint_inv in E4 as (-> & Hx & Hi4); [|easy].
  apply bind_inv in H as (u & i5 & E5 & H). apply guard_inv in E5 as [G ->].
  apply bind_inv in H as (p & i6 & E6 & H). apply take_inv in E6 as [-> L].
  apply bind_inv in H as (ty & i7 & E7 & H). apply opt_inv in E7 as [T ->].
  apply ret_inv in H as [-> <-]. cbn [m_type m_id m_expiration m_payload].
  apply mtype_inv in T as ->.
  change (256 ^ N.of_nat 2) with 65536 in Hs.
  change (256 ^ N.of_nat 4) with (2 ^ 32) in *.
  unfold build_short, len. cbn [m_type m_id m_expiration m_payload]. rewrite secs_of_secs.
  replace (N.of_nat (length p) + 9) with size by lia.
  rewrite <- !app_assoc. repeat apply conj; auto; try lia. unfold of_secs. lia.
Qed.

Lemma standard_canonical e i m r :
  bytes_ok i -> parse_standard i = Some (m, r) ->
  m_id m < 2 ^ 32 /\ (0 < length (m_payload m))%nat /\
  N.of_nat (length (m_payload m)) <= 65535 /\ m_expiration m < 1000000 * 2 ^ 64 /\
  exists c, c < 256 /\ i = firstn 15 (build_standard e m) ++ c :: m_payload m ++ r.
Proof.
  intros Hi H. unfold parse_standard in H.
  apply bind_inv in H as (t & i1 & E1 & H).
  apply be_uint_inv in E1 as (-> & Ht & Hi1); [|easy].
  apply bind_inv in H as (id & i2 & E2 & H).
  apply be_uint_inv in E2 as (-> & Hid & Hi2); [|easy].
  apply bind_inv in H as (x & i3 & E3 & H).
  apply be_uint_inv in E3 as (-> & Hx & Hi3); [|easy].
  apply bind_inv in H as (size & i4 & E4 & H).
  apply be_uint_inv in E4 as (-> & Hs & Hi4); [|easy].
  apply bind_inv in H as (c & i5 & E5 & H).
  apply be_uint_inv in E5 as (-> & Hc & Hi5); [|easy].
  apply bind_inv in H as (p & i6 & E6 & H). apply take_inv in E6 as [-> L].
  apply bind_inv in H as (u & i7 & E7 & H). apply guard_inv in E7 as [G ->].
  apply bind_inv in H as (ty & i8 & E8 & H). apply opt_inv in E8 as [T ->].
  apply ret_inv in H as [-> <-]. cbn [m_type m_id m_expiration m_payload].
  apply mtype_inv in T as ->.
  change (256 ^ N.of_nat 2) with 65536 in Hs.
  change (256 ^ N.of_nat 4) with (2 ^ 32) in *.
  change (256 ^ N.of_nat 8) with (2 ^ 64) in *.
  change (256 ^ N.of_nat 1) with 256 in *.
  repeat apply conj; auto; try lia.
  - destruct p; [discriminate|cbn; lia].
  - unfold of_ms. lia.
  - exists c. split; [easy|].
    unfold build_standard, len. cbn [m_type m_id m_expiration m_payload]. rewrite ms_of_ms.
    replace (N.of_nat (length p)) with size by lia.
    set (h := be_bytes 1 (mtype_u8 ty) ++ be_bytes 4 id ++ be_bytes 8 x ++ be_bytes 2 size).
    assert (Lh : length h = 15%nat) by (unfold h; rewrite !app_length, !be_bytes_length; reflexivity).
    transitivity (h ++ be_bytes 1 c ++ p ++ r); [unfold h; now rewrite <- !app_assoc|].
    replace (be_bytes 1 (mtype_u8 ty) ++ _) with (h ++ be_bytes 1 (nth 0 (sha256 e p) 0) ++ p)
      by (unfold h; now rewrite <- !app_assoc).
    rewrite <- Lh, firstn_exact. f_equal. cbn. rewrite N.mod_small by lia. reflexivity.
Qed.

Lemma short_long_rejected m :
  65527 <= N.of_nat (length (m_payload m)) <= 65536 -> parse_short (build_short m) = None.
Proof.
  intros H. unfold parse_short, build_short, len.
  pstep ltac:(apply be2_app_mod). pstep ltac:(apply be_uint_app_mod).
  pstep ltac:(apply be_uint_app_mod). pstep ltac:(apply be_uint_app_mod).
  replace ((N.of_nat (length (m_payload m)) + 9) mod 65536)
    with (N.of_nat (length (m_payload m)) + 9 - 65536).
  - unfold bind, guard. destruct (negb _) eqn:E; [lia|reflexivity].
  - apply N.mod_unique with 1; lia.
Qed.

(** *** netdb messages *)
Lemma many_take_app (l : list (list N)) rest :
  Forall hash_ok l -> many (length l) (take 32) (concat l ++ rest) = Some (l, rest).
Proof.
  intros H. rewrite <- (map_id l) at 2. rewrite <- flat_map_concat_map.
  apply many_app with (ok := hash_ok); [|easy].
  intros a r Ha. now apply take_app.
Qed.

Lemma NoDup_snoc {A} (s : list A) x : NoDup s -> ~ In x s -> NoDup (s ++ [x]).
Proof.
  intros H Hx. apply (NoDup_rev) in H. rewrite <- (rev_involutive (s ++ [x])).
  apply NoDup_rev. rewrite rev_app_distr. cbn. constructor; [|easy]. now rewrite <- in_rev.
Qed.
Lemma hset_insert_in s x y : In y (hset_insert s x) <-> In y s \/ y = x.
Proof.
  unfold hset_insert. destruct (existsb (beq x) s) eqn:E.
  - apply existsb_exists in E as (z & Hz & B). apply beq_eq in B. subst z.
    split; [auto|]. intros [H| ->]; auto.
  - rewrite in_app_iff. cbn. intuition.
Qed.
Lemma hset_insert_nodup s x : NoDup s -> NoDup (hset_insert s x).
Proof.
  intros H. unfold hset_insert. destruct (existsb (beq x) s) eqn:E; [easy|].
  apply NoDup_snoc; [easy|].
  intros Hx. assert (existsb (beq x) s = true); [|congruence].
  apply existsb_exists. exists x. split; [easy|apply beq_refl].
Qed.

Lemma fold_hset l : forall s,
  (forall y, In y (fold_left hset_insert l s) <-> In y s \/ In y l) /\
  (NoDup s -> NoDup (fold_left hset_insert l s)).
Proof.
  induction l as [|x l IH]; intros s; cbn [fold_left].
  - split; [|easy]. intros y. cbn. tauto.
  - destruct (IH (hset_insert s x)) as [A B]. split.
    + intros y. rewrite A, hset_insert_in. cbn. intuition.
    + intros H. apply B. now apply hset_insert_nodup.
Qed.

Lemma lookup_flags t b :
  let f := if b : bool then N.lor (lookup_u8 t) 1 else lookup_u8 t in
  f < 256 /\ N.testbit f 0 = b /\ N.testbit f 1 = false /\ N.testbit f 4 = false /\ lookup_of f = t.
Proof. destruct t, b; cbn; repeat apply conj; reflexivity || lia. Qed.

Lemma lookup_roundtrip key t reply ignored rest :
  hash_ok key -> Forall hash_ok ignored -> N.of_nat (length ignored) <= 512 ->
  match reply with
  | LrTunnel x r => x < 2 ^ 32 /\ hash_ok r
  | LrRouter r => hash_ok r
  end ->
  parse_lookup (ser_lookup key t reply ignored ++ rest) =
  Some (mkLookup (fold_left hset_insert ignored []) key t reply, rest).
Proof.
  intros Hk Hi Hn Hr. unfold parse_lookup, ser_lookup. destruct reply as [x r|r].
  - destruct Hr as [Hx Hr].
    destruct (lookup_flags t true) as (F & B0 & B1 & B4 & L).
    rewrite <- !app_assoc.
    pstep ltac:(apply take_app; exact Hk). pstep ltac:(apply take_app; exact Hr).
    pstep ltac:(apply be1_app; exact F). rewrite B0.
    pstep ltac:(unfold bind at 1; rewrite be4_app by exact Hx; reflexivity).
    pnum. rewrite guard_step by lia. rewrite Nat2N.id.
    pstep ltac:(apply many_take_app; exact Hi).
    rewrite guard_step by now rewrite B1, B4.
    unfold ret. now rewrite L.
  - destruct (lookup_flags t false) as (F & B0 & B1 & B4 & L).
    rewrite <- !app_assoc.
    pstep ltac:(apply take_app; exact Hk). pstep ltac:(apply take_app; exact Hr).
    pstep ltac:(apply be1_app; exact F). rewrite B0.
    pstep ltac:(reflexivity).
    pnum. rewrite guard_step by lia. rewrite Nat2N.id.
    pstep ltac:(apply many_take_app; exact Hi).
    rewrite guard_step by now rewrite B1, B4.
    unfold ret. now rewrite L.
Qed.

Lemma search_reply_roundtrip s rest :
  hash_ok (sr_key s) -> hash_ok (sr_from s) -> Forall hash_ok (sr_routers s) ->
  N.of_nat (length (sr_routers s)) < 256 ->
  parse_search_reply (ser_search_reply s ++ rest) = Some (s, rest).
Proof.
  intros Hk Hf Hr Hn. unfold parse_search_reply, ser_search_reply. rewrite <- !app_assoc.
  pstep ltac:(apply take_app; exact Hk). pnum. rewrite Nat2N.id.
  pstep ltac:(apply many_take_app; exact Hr).
  pstep ltac:(apply take_app; exact Hf). unfold ret. now destruct s.
Qed.

Lemma delivery_status_roundtrip d rest :
  ds_id d < 2 ^ 32 -> ds_time d < 1000000 * 2 ^ 64 ->
  parse_delivery_status (ser_delivery_status d ++ rest) =
  Some (mkDs (ds_id d) (whole_millis (ds_time d)), rest).
Proof.
  intros H1 H2. pose proof (ms_small _ H2). unfold parse_delivery_status, ser_delivery_status.
  rewrite <- !app_assoc. pnum. pnum. unfold ret. now rewrite whole_millis_eq.
Qed.

Lemma gateway_roundtrip g rest :
  tg_id g < 2 ^ 32 -> N.of_nat (length (tg_payload g)) < 65536 ->
  parse_gateway (ser_gateway g ++ rest) = Some (g, rest).
Proof.
  intros H1 H2. unfold parse_gateway, ser_gateway, len. rewrite <- !app_assoc.
  pnum. pnum. pstep ltac:(apply take_app; lia). unfold ret. now destruct g.
Qed.

Lemma store_reply_roundtrip r rest :
  store_reply_ok r -> parse_store_reply (ser_store_reply r ++ rest) = Some (r, rest).
Proof.
  intros H. unfold parse_store_reply, ser_store_reply. destruct r as [k t h|k h|]; cbn in H.
  - rewrite <- !app_assoc. pnum. replace (k =? 0) with false by lia. pnum.
    pstep ltac:(apply take_app; apply H). unfold ret. now replace (t =? 0) with false by lia.
  - rewrite <- !app_assoc. pnum. replace (k =? 0) with false by lia. pnum.
    pstep ltac:(apply take_app; apply H). reflexivity.
  - pnum. reflexivity.
Qed.

Lemma store_ri_roundtrip e gunzip key z data ri rr r rest :
  hash_ok key -> store_reply_ok r -> N.of_nat (length z) < 65536 ->
  gunzip z = Some data -> parse_rinfo e data = Some (ri, rr) ->
  parse_store e gunzip (ser_store key (KRouterInfo z) r ++ rest) =
  Some (mkStore key (SpRouterInfo ri) r, rest).
Proof.
  intros Hk Hr Hz Hg Hp. unfold parse_store, ser_store, len. rewrite <- !app_assoc.
  pstep ltac:(apply take_app; exact Hk). pstep ltac:(apply be1_app; reflexivity).
  rewrite (opt_step _ StRouterInfo) by reflexivity.
  pstep ltac:(apply store_reply_roundtrip; exact Hr). cbv iota. rewrite <- ?app_assoc. pnum.
  pstep ltac:(apply take_app; lia).
  rewrite (opt_step _ _ _ _ Hg), (opt_step _ ri) by now rewrite Hp. reflexivity.
Qed.

Lemma store_ls_roundtrip e gunzip key b ls r rest :
  hash_ok key -> store_reply_ok r ->
  parse_ls e (b ++ rest) = Some (ls, rest) ->
  parse_store e gunzip (ser_store key (KLeaseSet2 b) r ++ rest) =
  Some (mkStore key (SpLeaseSet2 ls) r, rest).
Proof.
  intros Hk Hr Hp. unfold parse_store, ser_store, len. rewrite <- !app_assoc.
  pstep ltac:(apply take_app; exact Hk). pstep ltac:(apply be1_app; reflexivity).
  rewrite (opt_step _ StLeaseSet2) by reflexivity.
  pstep ltac:(apply store_reply_roundtrip; exact Hr). cbv iota.
  pstep ltac:(exact Hp). reflexivity.
Qed.

Lemma extract_after_parse e gunzip i m rest :
  parse_store e gunzip i = Some (m, rest) ->
  match st_payload m with
  | SpRouterInfo ri =>
      exists z data rr, extract_raw true i = Some z /\ gunzip z = Some data /\
                        parse_rinfo e data = Some (ri, rr)
  | SpLeaseSet2 ls =>
      exists b, extract_raw false i = Some b /\ parse_ls e b = Some (ls, rest)
  end.
Proof.
  intros H. unfold parse_store in H.
  apply bind_inv in H as (key & i1 & E1 & H).
  apply bind_inv in H as (tb & i2 & E2 & H).
  apply bind_inv in H as (ty & i3 & E3 & H). apply opt_inv in E3 as [T ->].
  apply bind_inv in H as (reply & i4 & E4 & H).
  assert (X : forall B (f : unit -> parser B),
    bind (be_uint 4) (fun token => bind
      (if token =? 0 then ret tt else (bind (be_uint 4) (fun _ => bind (take 32) (fun _ => ret tt))))
      f) i2 = f tt i4).
  { intros B f. unfold parse_store_reply in E4.
    apply bind_inv in E4 as (token & j1 & F1 & E4). unfold bind at 1. rewrite F1.
    destruct (token =? 0).
    - apply ret_inv in E4 as [-> ->]. reflexivity.
    - apply bind_inv in E4 as (tunnel & j2 & F2 & E4).
      apply bind_inv in E4 as (router & j3 & F3 & E4).
      apply ret_inv in E4 as [-> ->].
      unfold bind. rewrite F2, F3. reflexivity. }
  destruct ty; try discriminate.
  - apply bind_inv in H as (size & i5 & E5 & H).
    apply bind_inv in H as (z & i6 & E6 & H).
    apply bind_inv in H as (data & i7 & E7 & H). apply opt_inv in E7 as [G ->].
    apply bind_inv in H as (ri & i8 & E8 & H). apply opt_inv in E8 as [R ->].
    apply ret_inv in H as [-> ->]. cbn [st_payload].
    destruct (parse_rinfo e data) as [[ri' rr]|] eqn:P; [|discriminate].
    cbn in R. injection R as ->.
    exists z, data, rr. repeat apply conj; auto.
    unfold extract_raw. unfold bind at 1. rewrite E1. unfold bind at 1. rewrite E2, X.
    unfold bind. rewrite E5, E6. reflexivity.
  - apply bind_inv in H as (ls & i5 & E5 & H).
    apply ret_inv in H as [-> ->]. cbn [st_payload].
    exists i4. split; [|easy].
    unfold extract_raw. unfold bind at 1. rewrite E1. unfold bind at 1. rewrite E2, X.
    reflexivity.
Qed.

(** *** tunnel build records *)
Lemma parse_multi_zero rest : parse_multi (be_bytes 2 0 ++ rest) = Some ([], rest).
Proof. unfold parse_multi. cbn. destruct rest; reflexivity. Qed.

Lemma short_record_roundtrip b time expi padding :
  br_tunnel b < 2 ^ 32 -> br_next_tunnel b < 2 ^ 32 -> hash_ok (br_next_router b) ->
  br_next_msg b < 2 ^ 32 ->
  parse_short_record (ser_short_record b time expi padding) = Some (b, []).
Proof.
  intros H1 H2 H3 H4. unfold parse_short_record, ser_short_record.
  assert (role_u8 (br_role b) < 256) by (destruct (br_role b); cbn; lia).
  pnum. pnum. pstep ltac:(apply take_app; exact H3). pnum.
  pstep ltac:(apply take_app; apply be_bytes_length).
  pnum. pstep ltac:(apply be_uint_app_mod). pstep ltac:(apply be_uint_app_mod). pnum.
  pstep ltac:(apply parse_multi_zero).
  pstep ltac:(apply take_all; reflexivity).
  rewrite (opt_step _ _ _ _ (role_round (br_role b))).
  unfold ret. now destruct b.
Qed.
