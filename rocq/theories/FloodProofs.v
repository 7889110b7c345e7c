(** A floodfill remembers what the history says it should. *)
From Coq Require Import List NArith Bool Arith Lia ZArith ZifyBool ZifyNat ZifyN.
From Verif Require Import ListUtil Bytes NMap PrimModel PrimProofs I2npModel I2npSpec I2npProofs KadModel KadSpec
  RouteProofs FloodModel FloodSpec.
Import ListNotations.
Open Scope N_scope.

Lemma beq_sym a b : beq a b = beq b a.
Proof.
  destruct (beq a b) eqn:E, (beq b a) eqn:F; try reflexivity.
  - apply beq_eq in E. subst. now rewrite beq_refl in F.
  - apply beq_eq in F. subst. now rewrite beq_refl in E.
Qed.
Lemma bget_filter {V} (f : bytes * V -> bool) k (m : list (bytes * V)) :
  (forall j v, beq j k = true -> f (j, v) = true) -> bget k (filter f m) = bget k m.
Proof.
  intros H. induction m as [|[j v] m IH]; [reflexivity|]. cbn [filter bget].
  destruct (beq j k) eqn:E.
  - rewrite (H _ _ E). cbn [bget]. now rewrite E.
  - destruct (f (j, v)); cbn [bget]; rewrite ?E; exact IH.
Qed.
Lemma bget_filter_none {V} (f : bytes * V -> bool) k (m : list (bytes * V)) :
  (forall j v, beq j k = true -> f (j, v) = false) -> bget k (filter f m) = None.
Proof.
  intros H. induction m as [|[j v] m IH]; [reflexivity|]. cbn [filter].
  destruct (f (j, v)) eqn:E; [|exact IH]. cbn [bget]. destruct (beq j k) eqn:E2; [|exact IH].
  rewrite (H _ _ E2) in E. discriminate.
Qed.
Lemma bget_bput {V} k j (v : V) m : bget j (bput k v m) = if beq k j then Some v else bget j m.
Proof.
  unfold bput. cbn [bget]. destruct (beq k j) eqn:E; [reflexivity|].
  apply bget_filter. intros i w H. cbn [fst]. apply beq_eq in H. subst i. rewrite beq_sym, E. reflexivity.
Qed.
(** The map has each key once. *)
Definition keys_once {V} (m : list (bytes * V)) : Prop := NoDup (map fst m).
Lemma filter_once {V} (f : bytes * V -> bool) m : keys_once m -> keys_once (filter f m).
Proof.
  unfold keys_once. induction m as [|[j v] m IH]; [trivial|]. cbn [map fst filter]. intros H.
  apply NoDup_cons_iff in H as [A B]. destruct (f (j, v)); [|auto]. cbn [map fst]. constructor; [|auto].
  intro X. apply A. apply in_map_iff in X as [[j' w] [<- X]]. apply filter_In in X as [X _].
  apply in_map_iff. now exists (j', w).
Qed.
Lemma bput_once {V} k (v : V) m : keys_once m -> keys_once (bput k v m).
Proof.
  intros H. unfold keys_once, bput. cbn [map fst]. constructor; [|now apply filter_once].
  intro X. apply in_map_iff in X as [[j w] [E X]]. cbn in E. subst j. apply filter_In in X as [_ X].
  cbn in X. rewrite beq_refl in X. discriminate.
Qed.
Lemma bget_filter_val {V} (f : V -> bool) k (m : list (bytes * V)) : keys_once m ->
  bget k (filter (fun x => f (snd x)) m) =
  match bget k m with Some v => if f v then Some v else None | None => None end.
Proof.
  unfold keys_once. induction m as [|[j v] m IH]; [reflexivity|]. cbn [map fst filter bget snd]. intros H.
  apply NoDup_cons_iff in H as [A B]. destruct (beq j k) eqn:E.
  - apply beq_eq in E. subst j. destruct (f v); [cbn [bget]; now rewrite beq_refl|].
    rewrite (IH B). destruct (bget k m) as [w|] eqn:G; [|reflexivity]. exfalso. apply A.
    clear -G. induction m as [|[j u] m IH]; [discriminate|]. cbn [bget] in G. cbn [map fst In].
    destruct (beq j k) eqn:E; [apply beq_eq in E; now left|right; auto].
  - destruct (f v); cbn [bget]; rewrite ?E; auto.
Qed.

(** ** Lease sets and time *)
Definition lease_time_ok (x : lease) : Prop := exists n, n < 2 ^ 32 /\ l_expires_ms x = n * 1000.
Definition ls_times_ok (l : lease_set) : Prop := Forall lease_time_ok (ls_leases l).

Lemma many_forall {A} (p : parser A) (P : A -> Prop) :
  (forall i x r, bytes_ok i -> p i = Some (x, r) -> P x /\ bytes_ok r) ->
  forall n i xs r, bytes_ok i -> many n p i = Some (xs, r) -> Forall P xs /\ bytes_ok r.
Proof.
  intros Hp n. induction n as [|n IH]; intros i xs r Hi H; cbn [many] in H.
  - apply ret_inv in H as [-> ->]. split; [constructor|exact Hi].
  - apply bind_inv in H as (x & i1 & H1 & H). apply bind_inv in H as (ys & i2 & H2 & H).
    apply ret_inv in H as [-> ->]. destruct (Hp _ _ _ Hi H1) as [Px B]. destruct (IH _ _ _ B H2) as [Pys B2].
    split; [now constructor|exact B2].
Qed.
Lemma consumes_ok {A} (p : parser A) i x r : consumes p -> bytes_ok i -> p i = Some (x, r) -> bytes_ok r.
Proof. intros C B H. destruct (C _ _ _ H) as [a ->]. now apply bytes_ok_app in B. Qed.

Lemma parse_ls_times e i l r : bytes_ok i -> parse_ls e i = Some (l, r) -> ls_times_ok l.
Proof.
  intros Hi H. unfold parse_ls in H.
  apply bind_inv in H as (h & r1 & H1 & H). apply bind_inv in H as (opts & r2 & H2 & H).
  apply bind_inv in H as (nk & r3 & H3 & H). apply bind_inv in H as (ks & r4 & H4 & H).
  apply bind_inv in H as ([] & r5 & H5 & H). apply guard_inv in H5 as [Hk ->].
  apply bind_inv in H as (nl & r6 & H6 & H).
  apply bind_inv in H as ([] & r7 & H7 & H). apply guard_inv in H7 as [Hn ->].
  apply bind_inv in H as (ls & r8 & H8 & H). cbv beta in H.
  apply bind_inv in H as (sg & r9 & H9 & H).
  apply bind_inv in H as ([] & r10 & H10 & H). apply ret_inv in H as [-> <-].
  unfold ls_times_ok. cbn [ls_leases].
  assert (B1 : bytes_ok r1).
  { unfold parse_lsh in H1.
    apply bind_inv in H1 as (d & q1 & A1 & H1). apply bind_inv in H1 as (pub & q2 & A2 & H1).
    apply bind_inv in H1 as (ex & q3 & A3 & H1). apply bind_inv in H1 as (fl & q4 & A4 & H1).
    cbv zeta in H1. destruct (parse_dest_inv _ _ _ _ A1) as (Ei & _). rewrite Ei in Hi.
    apply bytes_ok_app in Hi as [_ Hi].
    apply be_uint_inv in A2 as (_ & _ & Q2); [|exact Hi]. apply be_uint_inv in A3 as (_ & _ & Q3); [|exact Q2].
    apply be_uint_inv in A4 as (_ & _ & Q4); [|exact Q3].
    destruct (N.testbit fl 0).
    - apply bind_inv in H1 as (k & q5 & A5 & H1). apply ret_inv in H1 as [_ ->].
      destruct (parse_offline_inv _ _ _ _ _ A5) as (cert & sgc & pk & E5 & _). rewrite E5 in Q4.
      apply bytes_ok_app in Q4 as [_ Q4]. now apply bytes_ok_app in Q4.
    - now apply ret_inv in H1 as [_ ->]. }
  pose proof (consumes_ok _ _ _ _ parse_multi_consumes B1 H2) as B2.
  pose proof (consumes_ok _ _ _ _ (be_uint_consumes 1) B2 H3) as B3.
  apply many_forall with (P := fun _ => True) in H4 as [_ B4]; [|clear|exact B3].
  2:{ intros i x r Hi H. split; [exact I|]. apply (consumes_ok parse_pubkey i x r); [|assumption..].
      unfold parse_pubkey. repeat (apply bind_consumes; [first [apply be_uint_consumes|apply take_consumes]|intros ?]).
      match goal with |- consumes (if ?b then _ else _) => destruct b end; [|apply ret_consumes]. apply bind_consumes; [|intros; apply ret_consumes].
      apply guard_consumes. }
  apply be_uint_inv in H6 as (_ & _ & B6); [|exact B4].
  apply (many_forall _ lease_time_ok) in H8 as [B8 _]; [exact B8| |exact B6].
  clear. intros i x r Hi H. unfold parse_lease2 in H.
  apply bind_inv in H as (a & q1 & A1 & H). apply bind_inv in H as (t & q2 & A2 & H).
  apply bind_inv in H as (n & q3 & A3 & H). apply ret_inv in H as [-> ->].
  pose proof (consumes_ok _ _ _ _ (take_consumes 32) Hi A1) as B1.
  apply be_uint_inv in A2 as (_ & _ & B2); [|exact B1]. apply be_uint_inv in A3 as (_ & L & B3); [|exact B2].
  split; [|exact B3]. exists n. split; [exact L|reflexivity].
Qed.

Lemma expired_valid now l : now < 1000 * 2 ^ 32 -> ls_expired now l = negb (valid_at now l).
Proof.
  intros H. unfold ls_expired, valid_at.
  assert (E : (now / 1000) mod 2 ^ 32 = now / 1000).
  { apply N.mod_small. apply N.div_lt_upper_bound; [lia|exact H]. }
  rewrite E, negb_andb. f_equal; [lia|].
  induction (ls_leases l) as [|x t IH]; [reflexivity|]. cbn [forallb existsb]. rewrite IH, negb_orb. f_equal. lia.
Qed.

Lemma expires_lasts t l : ls_times_ok l -> negb (ls_expires l * 1000 <? t) = lasts_until t l.
Proof.
  unfold ls_times_ok, lasts_until, ls_expires. generalize (h_expires (ls_header' l)). intros h F. revert h.
  induction F as [|x xs [n [Ln En]] F IH]; intros h; cbn [fold_left forallb]; [rewrite andb_true_r; lia|].
  rewrite IH, En, N.div_mul by lia. rewrite (N.mod_small n) by exact Ln.
  rewrite andb_assoc. f_equal. lia.
Qed.

(** ** What a store message holds *)
Lemma parse_store_inv e gunzip i m rest : bytes_ok i ->
  parse_store e gunzip i = Some (m, rest) ->
  hash_ok (st_key m) /\ store_reply_ok (st_reply m) /\
  match st_payload m with
  | SpRouterInfo ri =>
      exists z data rr, extract_raw true i = Some z /\ gunzip z = Some data /\
                        parse_rinfo e data = Some (ri, rr) /\ (length z + 39 <= length i)%nat
  | SpLeaseSet2 ls =>
      exists b, extract_raw false i = Some b /\ parse_ls e b = Some (ls, rest) /\ bytes_ok b /\ (length b + 37 <= length i)%nat
  end.
Proof.
  intros Hi H. unfold parse_store in H.
  apply bind_inv in H as (key & i1 & E1 & H). apply bind_inv in H as (tb & i2 & E2 & H).
  apply bind_inv in H as (ty & i3 & E3 & H). apply opt_inv in E3 as [T ->].
  apply bind_inv in H as (reply & i4 & E4 & H).
  assert (X : forall B (f : unit -> parser B),
    bind (be_uint 4) (fun token => bind
      (if token =? 0 then ret tt else (bind (be_uint 4) (fun _ => bind (take 32) (fun _ => ret tt))))
      f) i2 = f tt i4).
  { intros B f. unfold parse_store_reply in E4.
    apply bind_inv in E4 as (token & j1 & F1 & E4). unfold bind at 1. rewrite F1.
    destruct (token =? 0).
    - apply ret_inv in E4 as [-> ->]. reflexivity.
    - apply bind_inv in E4 as (tunnel & j2 & F2 & E4).
      apply bind_inv in E4 as (router & j3 & F3 & E4).
      apply ret_inv in E4 as [-> ->].
      unfold bind. rewrite F2, F3. reflexivity. }
  destruct (take_inv _ _ _ _ E1) as [Ei Lk]. assert (Hi' := Hi). rewrite Ei in Hi'. apply bytes_ok_app in Hi' as [Bk B1].
  destruct (be_uint_inv _ _ _ _ E2 B1) as (Ei1 & _ & B2).
  assert (R : store_reply_ok reply /\ bytes_ok i4 /\ exists z, i2 = z ++ i4 /\ (4 <= length z)%nat).
  { clear X H. unfold parse_store_reply in E4. apply bind_inv in E4 as (token & j1 & F1 & E4).
    apply be_uint_inv in F1 as (Ej & Lt & C1); [|exact B2].
    destruct (N.eqb_spec token 0) as [->|Nt].
    - apply ret_inv in E4 as [-> ->]. split; [exact I|]. split; [exact C1|]. eexists. split; [exact Ej|]. now rewrite be_bytes_length.
    - apply bind_inv in E4 as (tunnel & j2 & F2 & E4). apply bind_inv in E4 as (router & j3 & F3 & E4).
      apply ret_inv in E4 as [-> ->]. apply be_uint_inv in F2 as (Ej2 & Lt2 & C2); [|exact C1].
      destruct (take_inv _ _ _ _ F3) as [Ej3 Lr]. pose proof (consumes_ok _ _ _ _ (take_consumes 32) C2 F3) as C3.
      split; [|split; [exact C3|]].
      + change (256 ^ N.of_nat 4) with (2 ^ 32) in *. destruct (N.eqb_spec tunnel 0); cbn [store_reply_ok]; unfold hash_ok; repeat split; try assumption; lia.
      + exists (be_bytes 4 token ++ be_bytes 4 tunnel ++ router). rewrite Ej, Ej2, Ej3, <- !app_assoc. split; [reflexivity|].
        rewrite app_length, be_bytes_length. lia. }
  destruct R as (Rok & B4 & z0 & Ez & Lz).
  assert (Li : (length i4 + 37 <= length i)%nat).
  { rewrite Ei, Ei1, Ez, !app_length, be_bytes_length, Lk. lia. }
  destruct ty; try discriminate.
  - apply bind_inv in H as (size & i5 & E5 & H). apply bind_inv in H as (z & i6 & E6 & H).
    apply bind_inv in H as (data & i7 & E7 & H). apply opt_inv in E7 as [G ->].
    apply bind_inv in H as (ri & i8 & E8 & H). apply opt_inv in E8 as [R ->].
    apply ret_inv in H as [-> ->]. cbn [st_payload st_key st_reply] in *.
    split; [exact Lk|]. split; [exact Rok|].
    destruct (parse_rinfo e data) as [[ri' rr]|] eqn:P; [|discriminate]. cbn in R. injection R as ->.
    exists z, data, rr. split; [|split; [exact G|split; [exact P|]]].
    + unfold extract_raw. unfold bind at 1. rewrite E1. unfold bind at 1. rewrite E2, X. unfold bind. rewrite E5, E6. reflexivity.
    + destruct (be_uint_inv _ _ _ _ E5 B4) as (Ei4 & _ & B5). destruct (take_inv _ _ _ _ E6) as [Ei5 _].
      rewrite Ei4, Ei5, !app_length, be_bytes_length in Li. lia.
  - apply bind_inv in H as (ls & i5 & E5 & H). apply ret_inv in H as [-> ->]. cbn [st_payload st_key st_reply] in *.
    split; [exact Lk|]. split; [exact Rok|]. exists i4. split; [|split; [exact E5|split; [exact B4|exact Li]]].
    unfold extract_raw. unfold bind at 1. rewrite E1. unfold bind at 1. rewrite E2, X. reflexivity.
Qed.

Lemma store_ls_raw e gunzip key b ls r : hash_ok key -> parse_ls e b = Some (ls, r) ->
  parse_store e gunzip (ser_store key (KLeaseSet2 b) SrNone) = Some (mkStore key (SpLeaseSet2 ls) SrNone, r).
Proof.
  intros Hk Hp. unfold parse_store, ser_store.
  pstep ltac:(apply take_app; exact Hk). pstep ltac:(apply be1_app; reflexivity).
  rewrite (opt_step _ StLeaseSet2) by reflexivity.
  pstep ltac:(apply (store_reply_roundtrip SrNone); exact I). cbv iota.
  pstep ltac:(exact Hp). reflexivity.
Qed.

(** ** The effect of one event on what is stored *)
Section Step.
Variable e : ext.
Variable gunzip : bytes -> option bytes.
Variable c : fconf.
Hypothesis FF : fc_floodfill c = true.

Lemma send_one_tables v k s r : forall s' o, send_one v k s r = (s', o) ->
  fd_leases s' = fd_leases s /\ fd_infos s' = fd_infos s /\ fd_dht s' = fd_dht s /\ fd_routers s' = fd_routers s.
Proof.
  intros s' o H. unfold send_one in H. destruct (nget r (fd_links s)) as [[|q]|]; [| |destruct (v_dial v r)];
    apply pair_equal_spec in H as [<- _]; repeat split.
Qed.
Lemma send_all_tables v k rs : forall s s' o, send_all v k s rs = (s', o) ->
  fd_leases s' = fd_leases s /\ fd_infos s' = fd_infos s /\ fd_dht s' = fd_dht s /\ fd_routers s' = fd_routers s.
Proof.
  induction rs as [|r rs IH]; intros s s' o H; cbn [send_all] in H.
  - apply pair_equal_spec in H as [<- _]. repeat split.
  - destruct (send_one v k s r) as [s1 o1] eqn:E1. destruct (send_all v k s1 rs) as [s2 o2] eqn:E2.
    apply pair_equal_spec in H as [<- _]. apply send_one_tables in E1 as (A1 & A2 & A3 & A4).
    apply IH in E2 as (B1 & B2 & B3 & B4). repeat split; congruence.
Qed.
Lemma flood_tables v s reply key k x s' o : answer_and_flood e v s reply key k x = (s', o) ->
  fd_leases s' = fd_leases s /\ fd_infos s' = fd_infos s /\ fd_dht s' = fd_dht s /\ fd_routers s' = fd_routers s.
Proof.
  intros H. unfold answer_and_flood in H. destruct (acknowledge e v reply) as [|[r m] t].
  - apply pair_equal_spec in H as [<- _]. repeat split.
  - destruct (send_one v m s r) as [s1 o1] eqn:E1.
    destruct (send_all v _ s1 _) as [s2 o2] eqn:E2 in H.
    apply pair_equal_spec in H as [<- _]. apply send_one_tables in E1 as (A1 & A2 & A3 & A4).
    apply send_all_tables in E2 as (B1 & B2 & B3 & B4). repeat split; congruence.
Qed.

(** What is stored under a key corresponds to what should be remembered. *)
Definition lease_entry (x : option (bytes * N)) (m : option store_payload) : Prop :=
  match x with
  | None => m = None
  | Some (raw, t) => exists l r, m = Some (SpLeaseSet2 l) /\ parse_ls e raw = Some (l, r) /\ ls_times_ok l /\
                       t = ls_expires l * 1000 /\ N.of_nat (length raw) + 37 <= 65526
  end.
Definition info_entry (x : option (bytes * N)) (m : option store_payload) : Prop :=
  match x with
  | None => m = None
  | Some (raw, t) => exists i d r, m = Some (SpRouterInfo i) /\ gunzip raw = Some d /\ parse_rinfo e d = Some (i, r) /\
                       t = rf_published i /\ N.of_nat (length raw) + 39 <= 65526
  end.
Definition remembers (s : fdb) (ops : list (fenv * fop)) : Prop :=
  keys_once (fd_leases s) /\ keys_once (fd_infos s) /\
  forall key, lease_entry (bget key (fd_leases s)) (recalls e gunzip c true key ops) /\
              info_entry (bget key (fd_infos s)) (recalls e gunzip c false key ops).

Lemma recalls_snoc lease key ops x :
  recalls e gunzip c lease key (ops ++ [x]) = recall_step e gunzip c lease key (recalls e gunzip c lease key ops) x.
Proof. unfold recalls. now rewrite fold_left_app. Qed.

Lemma recalls_kind key ops : forall lease, match recalls e gunzip c lease key ops with
  | Some (SpLeaseSet2 _) => lease = true | Some (SpRouterInfo _) => lease = false | None => True end.
Proof.
  intros lease. induction ops as [|x ops IH] using rev_ind; [exact I|]. rewrite recalls_snoc.
  unfold recall_step. destruct x as [v [b|b|r|r|r|]]; cbn [snd fst]; try exact IH.
  - destruct (parse_store e gunzip b) as [[st r]|]; [|exact IH].
    destruct (beq (st_key st) key && Bool.eqb (is_lease (st_payload st)) lease && takes c (v_now v) (st_payload st)) eqn:E; [|exact IH].
    apply andb_true_iff in E as [E _]. apply andb_true_iff in E as [_ E]. apply eqb_prop in E.
    destruct (st_payload st); cbn in E; congruence.
  - destruct (recalls e gunzip c lease key ops) as [[i|l]|]; try exact IH. destruct (lasts_until (v_now v) l); [exact IH|exact I].
Qed.

(** Events that leave the tables alone. *)
Lemma remembers_same s s' ops x :
  remembers s ops -> fd_leases s' = fd_leases s -> fd_infos s' = fd_infos s ->
  (forall lease key m, recall_step e gunzip c lease key m x = m) -> remembers s' (ops ++ [x]).
Proof.
  intros (U1 & U2 & H) E1 E2 Hx. unfold remembers. rewrite E1, E2. split; [exact U1|]. split; [exact U2|].
  intros key. rewrite !recalls_snoc, !Hx. apply H.
Qed.

Lemma step_remembers v s ops o s' out :
  env_ok v -> op_fits o -> remembers s ops -> fstep e gunzip c v s o = Some (s', out) ->
  remembers s' (ops ++ [(v, o)]).
Proof.
  intros (Hnow & _) Hf M H. destruct o as [b|b|r|r|r|]; cbn [fstep] in H.
  - unfold on_store in H. cbn [op_fits] in Hf. destruct Hf as [Hb Hl].
    destruct (parse_store e gunzip b) as [[st r]|] eqn:P.
    2:{ injection H as <- <-. apply (remembers_same s); try assumption; try reflexivity.
        intros lease key m. unfold recall_step. cbn [snd]. now rewrite P. }
    pose proof (parse_store_inv _ _ _ _ _ Hb P) as (Kk & Kr & Kp).
    destruct st as [key [i|l] reply]; cbn [st_key st_payload st_reply] in *.
    + unfold on_info_store in H.
      assert (T : takes c (v_now v) (SpRouterInfo i) =
                  negb (negb (rf_net_id i =? fc_net c)) && negb (be_val (ri_hash (rf_identity i)) =? fc_local c)
                  && negb (rf_published i + 3600000 <? v_now v)).
      { unfold takes. rewrite negb_involutive. f_equal. lia. }
      assert (NoTake : takes c (v_now v) (SpRouterInfo i) = false -> Some (s, []) = Some (s', out) ->
                remembers s' (ops ++ [(v, FStore b)])).
      { intros Tf E. injection E as <- <-. apply (remembers_same s); try assumption; try reflexivity.
        intros lease k m. unfold recall_step. cbn [snd fst]. rewrite P. cbn [st_payload st_key]. now rewrite Tf, andb_false_r. }
      destruct (negb (rf_net_id i =? fc_net c)); [apply NoTake; [exact T|exact H]|].
      destruct (be_val (ri_hash (rf_identity i)) =? fc_local c); [apply NoTake; [exact T|exact H]|].
      destruct (rf_published i + 3600000 <? v_now v); [apply NoTake; [exact T|exact H]|]. clear NoTake. cbn [negb andb] in T.
      destruct Kp as (z & d & rr & X & G & Pi & Lz). rewrite X, FF in H. cbn [negb] in H.
      match goal with H : context [answer_and_flood e v ?s2 _ _ _ _] |- _ =>
        destruct (answer_and_flood e v s2 reply key (KRouterInfo z) (rf_published i + 3600000)) as [s3 o3] eqn:E3 end.
      injection H as <- <-. apply flood_tables in E3 as (A1 & A2 & _). cbn [fd_leases fd_infos] in A1, A2.
      destruct M as (U1 & U2 & M). unfold remembers. rewrite A1, A2. split; [exact U1|]. split; [now apply bput_once|].
      intros k. rewrite !recalls_snoc. specialize (M k) as [M1 M2].
      unfold recall_step at 1 2. cbn [snd fst]. rewrite P. cbn [st_payload st_key is_lease Bool.eqb]. rewrite T, !andb_true_r, andb_false_r.
      split; [exact M1|]. rewrite bget_bput. destruct (beq key k); [|exact M2].
      cbn [info_entry]. exists i, d, rr. repeat split; try assumption. lia.
    + rewrite FF in H. unfold on_lease_store in H. rewrite expired_valid in H by lia.
      destruct (valid_at (v_now v) l) eqn:T; cbn [negb] in H.
      2:{ injection H as <- <-. apply (remembers_same s); try assumption; try reflexivity.
          intros lease k m. unfold recall_step. cbn [snd fst]. rewrite P. cbn [st_payload st_key takes]. now rewrite T, andb_false_r. }
      destruct Kp as (raw & X & Pl & Br & Lr). rewrite X in H. cbv zeta in H.
      match goal with H : Some (answer_and_flood ?a ?b ?s2 ?d ?e ?f ?g) = _ |- _ =>
        destruct (answer_and_flood a b s2 d e f g) as [s3 o3] eqn:E3 end.
      injection H as <- <-. apply flood_tables in E3 as (A1 & A2 & _). cbn [fd_leases fd_infos] in A1, A2.
      destruct M as (U1 & U2 & M). unfold remembers. rewrite A1, A2. split; [now apply bput_once|]. split; [exact U2|].
      intros k. rewrite !recalls_snoc. specialize (M k) as [M1 M2].
      unfold recall_step at 1 2. cbn [snd fst]. rewrite P. cbn [st_payload st_key is_lease Bool.eqb takes]. rewrite T, !andb_true_r, andb_false_r.
      split; [|exact M2]. rewrite bget_bput. destruct (beq key k); [|exact M1].
      cbn [lease_entry]. exists l, r. split; [reflexivity|]. split; [exact Pl|]. split; [exact (parse_ls_times _ _ _ _ Br Pl)|]. split; [reflexivity|lia].
  - unfold on_lookup_message in H. rewrite FF in H. cbn [negb] in H.
    assert (Same : fd_leases s' = fd_leases s /\ fd_infos s' = fd_infos s).
    { destruct (parse_lookup b) as [[[ig key ty rp] r]|]; [|injection H as <- _; split; reflexivity].
      destruct ty; try (injection H as <- _; split; reflexivity).
      unfold on_exploration in H. destruct (fd_routers s) as [t|]; [|injection H as <- _; split; reflexivity].
      destruct rp; injection H as H; apply send_one_tables in H as (A & B & _); split; assumption. }
    destruct Same. apply (remembers_same s); try assumption. intros lease k m. reflexivity.
  - injection H as <- _. apply (remembers_same s); try assumption; try reflexivity.
  - injection H as <- _. apply (remembers_same s); try assumption; try reflexivity.
  - injection H as <- _. apply (remembers_same s); try assumption; try reflexivity.
  - injection H as <- _. destruct M as (U1 & U2 & M). unfold remembers, maintain. cbn [fd_leases fd_infos].
    split; [now apply filter_once|]. split; [exact U2|]. intros k. rewrite !recalls_snoc. specialize (M k) as [M1 M2].
    pose proof (recalls_kind k ops false) as K2. unfold recall_step. cbn [snd fst]. split.
    + rewrite (bget_filter_val (fun x => negb (snd x <? v_now v))) by exact U1.
      destruct (bget k (fd_leases s)) as [[raw t]|]; cbn [lease_entry] in M1.
      * destruct M1 as (l & r & -> & Pl & Tl & -> & L). cbn [snd]. rewrite expires_lasts by exact Tl.
        destruct (lasts_until (v_now v) l); [|reflexivity]. cbn [lease_entry]. exists l, r. repeat split; assumption.
      * rewrite M1. reflexivity.
    + destruct (recalls e gunzip c false k ops) as [[i|l]|]; [exact M2|discriminate|exact M2].
Qed.

Lemma fruns_snoc s ops x s1 o1 : fruns e gunzip c s (ops ++ [x]) = Some (s1, o1) ->
  exists s0 o0 o2, fruns e gunzip c s ops = Some (s0, o0) /\ fstep e gunzip c (fst x) s0 (snd x) = Some (s1, o2) /\ o1 = o0 ++ o2.
Proof.
  revert s s1 o1. induction ops as [|[v o] ops IH]; intros s s1 o1 H; cbn [app fruns] in H.
  - destruct x as [v o]. destruct (fstep e gunzip c v s o) as [[s2 o2]|] eqn:E; [|discriminate].
    injection H as <- <-. exists s, [], o2. split; [reflexivity|]. split; [exact E|]. now rewrite app_nil_r.
  - destruct (fstep e gunzip c v s o) as [[s2 o2]|] eqn:E; [|discriminate].
    destruct (fruns e gunzip c s2 (ops ++ [x])) as [[s3 o3]|] eqn:F; [|discriminate]. injection H as <- <-.
    apply IH in F as (s0 & o0 & o4 & F1 & F2 & ->). exists s0, (o2 ++ o0), o4. cbn [fruns]. rewrite E, F1.
    split; [reflexivity|]. split; [exact F2|]. now rewrite app_assoc.
Qed.

Lemma runs_remember ops : forall s out, history_ok ops -> fruns e gunzip c (fdb_new c) ops = Some (s, out) -> remembers s ops.
Proof.
  induction ops as [|[v o] ops IH] using rev_ind; intros s out Hh H.
  - injection H as <- <-. split; [constructor|]. split; [constructor|]. intros k. split; reflexivity.
  - unfold history_ok in Hh. apply Forall_app in Hh as [Hh Hx]. apply Forall_cons_iff in Hx as [[He Hf] _]. cbn [fst snd] in *.
    apply fruns_snoc in H as (s0 & o0 & o2 & F1 & F2 & ->). cbn [fst snd] in F2.
    exact (step_remembers v s0 ops o s o2 He Hf (IH _ _ Hh F1) F2).
Qed.
End Step.
