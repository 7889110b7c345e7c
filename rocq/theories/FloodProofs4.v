(** The floodfills that answers and flooding draw on. *)
From Coq Require Import List NArith ZArith Bool Arith Lia ZifyBool ZifyNat ZifyN Permutation.
From Verif Require Import ListUtil Bytes NMap PrimModel PrimProofs I2npModel I2npSpec I2npProofs KadModel KadSpec KadProofs KadProofs2 KadProofs3
  KadProps RouteProofs FloodModel FloodSpec FloodProofs FloodProofs2 FloodProofs3.
Import ListNotations.
Open Scope N_scope.

Lemma rinfo_hash e i r rest : parse_rinfo e i = Some (r, rest) -> exists b, ri_hash (rf_identity r) = sha256 e b.
Proof.
  intros H. unfold parse_rinfo in H. apply bind_inv in H as (id & i1 & E1 & H).
  assert (X : rf_identity r = id).
  { apply bind_inv in H as (pu & i2 & E2 & H). apply bind_inv in H as (n & i3 & E3 & H). apply bind_inv in H as (ad & i4 & E4 & H).
    apply bind_inv in H as (z & i5 & E5 & H). apply bind_inv in H as (op & i6 & E6 & H). cbv zeta in H.
    destruct (mget s_caps (into_hashmap op)) as [cp|]; [|discriminate]. destruct (mget s_netid (into_hashmap op)) as [ni|]; [|discriminate].
    destruct (parse_dec 255 ni) as [net|]; [|discriminate]. destruct (_ && _) in H; [|discriminate]. now injection H as <- _. }
  rewrite X. unfold parse_ri in E1. destruct (_ <? _)%nat in E1; [discriminate|].
  repeat (apply bind_inv in E1 as (? & ? & _ & E1)). apply ret_inv in E1 as [-> _]. cbn [ri_hash]. eauto.
Qed.
Lemma store_info_hash e gunzip b key i reply r : parse_store e gunzip b = Some (mkStore key (SpRouterInfo i) reply, r) ->
  exists x, ri_hash (rf_identity i) = sha256 e x.
Proof.
  intros H. apply extract_after_parse in H. cbn [st_payload] in H. destruct H as (z & d & rr & _ & _ & H). exact (rinfo_hash _ _ _ _ H).
Qed.

Definition dht_ok (c : fconf) (s : fdb) (known_by : list N) : Prop :=
  table_ok (fd_dht s) /\ t_local (fd_dht s) = fc_local c /\ forall k, In k (known (fd_dht s)) -> In k known_by.

Lemma known_add t k x : table_ok t -> router_id k -> In x (known (add_router t k)) -> x = k \/ In x (known t).
Proof.
  intros T K H. unfold known in H. apply in_map_iff in H as ([y s] & <- & H). cbn [fst].
  destruct (add_only _ _ _ T K H) as [E|E]; [injection E as -> _; now left|right]. unfold known. apply in_map_iff. now exists (y, s).
Qed.
Lemma dht_ok_more c s s' l l' : fd_dht s' = fd_dht s -> (forall k, In k l -> In k l') -> dht_ok c s l -> dht_ok c s' l'.
Proof. intros E I (A & B & D). unfold dht_ok. rewrite E. split; [exact A|]. split; [exact B|]. auto. Qed.
Lemma dht_ok_add c s s' l k : router_id k -> fd_dht s' = add_router (fd_dht s) k -> dht_ok c s l -> dht_ok c s' (l ++ [k]).
Proof.
  intros K E (A & B & D). unfold dht_ok. rewrite E. split; [now apply add_ok|]. split; [now rewrite add_local|].
  intros x Hx. apply in_or_app. destruct (known_add _ _ _ A K Hx) as [->|H]; [right; now left|left; auto].
Qed.

Lemma step_dht e gunzip c v s o s' out l :
  (forall b, router_id (be_val (sha256 e b))) -> (match o with FEstablished r => router_id r | _ => True end) ->
  dht_ok c s l -> fstep e gunzip c v s o = Some (s', out) -> dht_ok c s' (l ++ heard_of e gunzip c (v, o)).
Proof.
  intros Hh Ho D H.
  assert (Same : fd_dht s' = fd_dht s -> dht_ok c s' (l ++ heard_of e gunzip c (v, o))).
  { intros E. apply (dht_ok_more c s s' l); [exact E| |exact D]. intros k Hk. apply in_or_app. now left. }
  destruct o as [b|b|r|r|r|]; cbn [fstep] in H.
  - unfold on_store in H. destruct (parse_store e gunzip b) as [[st r]|] eqn:P; [|injection H as <- <-; now apply Same].
    destruct st as [key [i|ls] reply].
    + unfold on_info_store in H.
      destruct (negb (rf_net_id i =? fc_net c)) eqn:T1; [injection H as <- <-; now apply Same|].
      destruct (be_val (ri_hash (rf_identity i)) =? fc_local c) eqn:T2; [injection H as <- <-; now apply Same|].
      destruct (rf_published i + 3600000 <? v_now v) eqn:T3; [injection H as <- <-; now apply Same|].
      assert (T : takes c (v_now v) (SpRouterInfo i) = true).
      { unfold takes. rewrite T2. apply negb_false_iff in T1. rewrite T1. cbn [negb andb]. lia. }
      destruct (extract_raw true b) as [raw|]; [|discriminate].
      assert (E : fd_dht s' = if c_floodfill (rf_caps i) then add_router (fd_dht s) (be_val (ri_hash (rf_identity i))) else fd_dht s).
      { destruct (negb (fc_floodfill c)); [now injection H as <- _|].
        match goal with H : context [answer_and_flood e v ?s2 reply key ?k ?x] |- _ =>
          destruct (answer_and_flood e v s2 reply key k x) as [s3 o3] eqn:E3 end.
        injection H as <- _. apply flood_tables in E3 as (_ & _ & E3 & _). exact E3. }
      unfold heard_of in *. cbn [snd fst] in *. rewrite P, T in *. cbn [andb] in *. destruct (c_floodfill (rf_caps i)).
      * apply (dht_ok_add c s); [|exact E|exact D]. destruct (store_info_hash _ _ _ _ _ _ _ P) as [x ->]. apply Hh.
      * now apply Same.
    + apply Same. destruct (fc_floodfill c); [|now injection H as <- _]. unfold on_lease_store in H.
      destruct (ls_expired _ _); [now injection H as <- _|]. destruct (extract_raw false b) as [raw|]; [|discriminate]. cbv zeta in H.
      match goal with H : Some (answer_and_flood ?a ?b ?s2 ?d ?e ?f ?g) = _ |- _ =>
        destruct (answer_and_flood a b s2 d e f g) as [s3 o3] eqn:E3 end.
      injection H as <- _. apply flood_tables in E3 as (_ & _ & E3 & _). exact E3.
  - apply Same. unfold on_lookup_message in H. destruct (negb _); [now injection H as <- _|].
    destruct (parse_lookup b) as [[[ig key ty rp] r]|]; [|now injection H as <- _].
    destruct ty; try now injection H as <- _.
    unfold on_exploration in H. destruct (fd_routers s); [|now injection H as <- _].
    destruct rp; injection H as H; now apply send_one_tables in H as (_ & _ & H & _).
  - injection H as <- <-. unfold heard_of. cbn [snd fst]. destruct (v_floodfill v r) eqn:E.
    + apply (dht_ok_add c s); [exact Ho| |exact D]. cbn [fd_dht]. reflexivity.
    + apply (dht_ok_more c s _ l); [cbn [fd_dht]; reflexivity| |exact D]. intros k Hk. apply in_or_app. now left.
  - injection H as <- <-. now apply Same.
  - injection H as <- <-. now apply Same.
  - injection H as <- <-. now apply Same.
Qed.

Lemma runs_dht e gunzip c ops : forall s out, ids_ok e c ops -> fruns e gunzip c (fdb_new c) ops = Some (s, out) ->
  dht_ok c s (floodfills_heard_of e gunzip c ops).
Proof.
  induction ops as [|[v o] ops IH] using rev_ind; intros s out (H1 & H2 & H3) H.
  - injection H as <- <-. split; [now apply table_new_ok|]. split; [reflexivity|]. intros k X. exfalso.
    unfold known, entries, fdb_new, table_new in X. cbn [fd_dht t_bucket] in X.
    apply in_map_iff in X as (y & _ & X). apply in_flat_map in X as (i & _ & X). exact X.
  - apply Forall_app in H3 as [F1 F2]. apply Forall_cons_iff in F2 as [F2 _]. cbn [snd] in F2.
    apply fruns_snoc in H as (s0 & o0 & o2 & R1 & R2 & ->). cbn [fst snd] in R2.
    unfold floodfills_heard_of. rewrite flat_map_app. cbn [flat_map]. rewrite app_nil_r.
    apply (step_dht e gunzip c v s0 o s o2); try assumption. apply (IH s0 o0); [|exact R1]. repeat split; assumption.
Qed.

(** The closest routers. *)
Lemma closest_chosen t target n ignore rs : table_ok t -> router_id target ->
  closest_with_ignore t target n ignore = Some rs -> the_closest n target (known t) ignore rs.
Proof.
  intros T R E0. split.
  { unfold closest_with_ignore in E0. destruct (bucket_order _); [|discriminate]. injection E0 as <-. apply firstn_le_length. }
  destruct (closest_with_ignore_spec t target n ignore T R) as (all & rs' & E & P & Sd & H). rewrite E in E0. injection E0 as ->.
  assert (M : forall k, In k all <-> In k (known t) /\ ~ In k ignore).
  { intros k. assert (X : In k all <-> In k (filter (fun k => negb (smem k ignore)) (known t))).
    { split; apply Permutation_in; [exact P|now symmetry]. }
    rewrite X, filter_In, negb_true_iff. split; intros [A B]; (split; [exact A|]).
    - intro Y. apply smem_In in Y. congruence.
    - destruct (smem k ignore) eqn:Z; [|reflexivity]. apply smem_In in Z. contradiction. }
  assert (Pre : exists m, forall x, In x rs <-> In x (firstn m all)).
  { destruct H as [->|(_ & a & b & -> & ->)]; [now exists n|].
    destruct (Nat.le_gt_cases n (length a)) as [L|L].
    - exists n. intros x. rewrite !firstn_app. replace (n - length a)%nat with 0%nat by lia. now rewrite !firstn_O.
    - exists (Nat.max (length a + 1) (n - 1)). intros x.
      rewrite !firstn_app. rewrite (firstn_all2 (n := n) a) by lia. rewrite (firstn_all2 (n := Nat.max (length a + 1) (n - 1)) a) by lia.
      destruct (n - length a)%nat as [|k] eqn:En; [lia|]. destruct (Nat.max (length a + 1) (n - 1) - length a)%nat as [|m] eqn:Em; [lia|].
      cbn [firstn]. rewrite !in_app_iff. destruct k as [|k]; cbn [firstn In].
      + assert (m = 0)%nat as -> by lia. cbn [firstn In]. tauto.
      + assert (m = k) as -> by lia. tauto. }
  destruct Pre as [m Pre]. split.
  - intros k Hk. apply M. apply Pre in Hk. rewrite <- (firstn_skipn m all). apply in_or_app. now left.
  - intros k k' Hk Hk' Hi Hn. assert (Ha : In k' all) by (apply M; now split).
    apply Pre in Hk. rewrite Pre in Hn. rewrite <- (firstn_skipn m all) in Ha, Sd. apply in_app_or in Ha as [Ha|Ha]; [contradiction|].
    clear -Sd Hk Ha. unfold closest_first in Sd. induction (firstn m all) as [|y l IH]; [destruct Hk|].
    cbn [app] in Sd. apply Sorted.StronglySorted_inv in Sd as [Sd F]. destruct Hk as [<-|Hk]; [|now apply IH].
    rewrite Forall_forall in F. apply F. apply in_or_app. now right.
Qed.

Section Answers.
Variable e : ext.
Variable gunzip : bytes -> option bytes.
Variable c : fconf.
Hypothesis FF : fc_floodfill c = true.

Lemma lease_type (lease : bool) : lookup_lease (if lease then LLeaseSet else LRouter) = Some lease.
Proof. now destruct lease. Qed.
Lemma way_open v reply m : way_back v reply = true -> sent_back v reply m = delivered reply m.
Proof. unfold way_back, sent_back, delivered. destruct reply; now intros ->. Qed.

Lemma recall_answers ops v p lease key reply ignore entry : history_ok ops -> env_ok v -> looks_up lease key p reply ignore ->
  way_back v reply = true -> recalls e gunzip c lease key ops = Some entry -> answers e gunzip c ops v p lease key entry.
Proof.
  intros H V [rest P] W R. destruct (runs_total e gunzip c ops (fdb_new c)) as (s & sent & Rn).
  pose proof (runs_remember e gunzip c FF ops s sent H Rn) as Rm.
  destruct (lookup_answer e gunzip c ops s v p ignore key _ reply rest lease FF Rm V P (lease_type lease)) as (m & msg & A1 & A2 & A3 & A4).
  rewrite R in A4. destruct A4 as [A4 [r A5]]. rewrite (way_open _ _ _ W) in A1.
  exists s, sent, reply, ignore, m, msg, r. repeat split; try assumption. now exists rest.
Qed.
Lemma no_recall_refers ops v p lease key reply ignore : history_ok ops -> env_ok v -> looks_up lease key p reply ignore ->
  way_back v reply = true -> recalls e gunzip c lease key ops = None ->
  exists s sent, fruns e gunzip c (fdb_new c) ops = Some (s, sent) /\
  refers e gunzip c ops v p lease key ignore
    (mkSr (be_bytes 32 (fc_local c)) key (map (be_bytes 32) (search_routers (fd_dht s) v key ignore))).
Proof.
  intros H V [rest P] W R. destruct (runs_total e gunzip c ops (fdb_new c)) as (s & sent & Rn). exists s, sent. split; [exact Rn|].
  pose proof (runs_remember e gunzip c FF ops s sent H Rn) as Rm.
  destruct (lookup_answer e gunzip c ops s v p ignore key _ reply rest lease FF Rm V P (lease_type lease)) as (m & msg & A1 & A2 & A3 & A4).
  rewrite R in A4. destruct A4 as [A4 A5]. rewrite (way_open _ _ _ W) in A1.
  exists s, sent, reply, m, msg. repeat split; try assumption; [now exists rest|].
  rewrite A5. apply search_answer_read. now apply parse_lookup_key in P.
Qed.
Lemma delivered_inj reply m m' : delivered reply m = delivered reply m' -> m = m'.
Proof. unfold delivered. destruct reply; intros H; now injection H. Qed.
Lemma answers_recall ops v p lease key entry : history_ok ops -> env_ok v ->
  answers e gunzip c ops v p lease key entry -> recalls e gunzip c lease key ops = Some entry.
Proof.
  intros H V (s & sent & reply & ignore & m & msg & r & Rn & [rest P] & St & Rd & Ty & Ps).
  pose proof (runs_remember e gunzip c FF ops s sent H Rn) as Rm.
  destruct (lookup_answer e gunzip c ops s v p ignore key _ reply rest lease FF Rm V P (lease_type lease)) as (m' & msg' & A1 & A2 & A3 & A4).
  rewrite A1 in St. injection St as St.
  assert (W : sent_back v reply m' = delivered reply m').
  { unfold sent_back, delivered in *. destruct reply as [t h|h]; [destruct (v_tunnel v)|destruct (v_linked v (be_val h))]; try reflexivity; discriminate St. }
  rewrite W in St. apply delivered_inj in St as ->. rewrite A2 in Rd. injection Rd as ->.
  destruct (recalls e gunzip c lease key ops) as [pl|].
  - destruct A4 as [_ [r' A4]]. rewrite A4 in Ps. now injection Ps as ->.
  - destruct A4 as [A4 _]. congruence.
Qed.

(** Cleanups and lease sets. *)
Lemma recall_after after : forall m key l,
  fold_left (recall_step e gunzip c true key) after m = Some (SpLeaseSet2 l) ->
  m = Some (SpLeaseSet2 l) \/
  exists v b reply r, In (v, FStore b) after /\ parse_store e gunzip b = Some (mkStore key (SpLeaseSet2 l) reply, r) /\
    valid_at (v_now v) l = true.
Proof.
  induction after as [|[v o] after IH]; intros m key l H; [now left|]. cbn [fold_left] in H. apply IH in H as [H|H].
  - assert (D : recall_step e gunzip c true key m (v, o) = m \/ recall_step e gunzip c true key m (v, o) = None \/
      exists b st r, o = FStore b /\ parse_store e gunzip b = Some (st, r) /\ beq (st_key st) key = true /\
        takes c (v_now v) (st_payload st) = true /\ recall_step e gunzip c true key m (v, o) = Some (st_payload st)).
    { unfold recall_step. cbn [snd fst]. destruct o as [b|b|x|x|x|]; try now left.
      - destruct (parse_store e gunzip b) as [[st r]|] eqn:P; [|now left].
        destruct (beq (st_key st) key) eqn:K; cbn [andb]; [|now left]. destruct (Bool.eqb _ _); cbn [andb]; [|now left].
        destruct (takes c (v_now v) (st_payload st)) eqn:T; [|now left]. right. right. exists b, st, r. repeat split; assumption.
      - destruct m as [[i|x]|]; try now left. destruct (lasts_until (v_now v) x); auto. }
    destruct D as [D|[D|(b & st & r & -> & P & K & T & D)]]; rewrite D in H; [now left|discriminate|].
    right. injection H as H. destruct st as [k pl rp]. cbn [st_key st_payload] in *. subst pl. apply beq_eq in K as ->.
    exists v, b, rp, r. split; [now left|]. split; [exact P|exact T].
  - right. destruct H as (v' & b & rp & r & A & B). exists v', b, rp, r. split; [now right|exact B].
Qed.
Lemma recalls_app lease key a b : recalls e gunzip c lease key (a ++ b) = fold_left (recall_step e gunzip c lease key) b (recalls e gunzip c lease key a).
Proof. unfold recalls. apply fold_left_app. Qed.
Lemma info_forever cleanups key i : Forall (fun x => snd x = FMaintain) cleanups ->
  fold_left (recall_step e gunzip c false key) cleanups (Some (SpRouterInfo i)) = Some (SpRouterInfo i).
Proof. induction 1 as [|[v o] l H F IH]; [reflexivity|]. cbn [snd] in H. subst o. exact IH. Qed.
Lemma store_recalled lease key v b st r : parse_store e gunzip b = Some (st, r) -> st_key st = key ->
  is_lease (st_payload st) = lease -> takes c (v_now v) (st_payload st) = true ->
  forall m, recall_step e gunzip c lease key m (v, FStore b) = Some (st_payload st).
Proof.
  intros P K L T m. unfold recall_step. cbn [snd fst]. rewrite P, T, K, L, beq_refl, Bool.eqb_reflx. reflexivity.
Qed.
End Answers.

(** A refused entry changes nothing. *)
Lemma refused_nothing e gunzip c v s b st r : fc_floodfill c = true -> env_ok v -> op_fits (FStore b) ->
  parse_store e gunzip b = Some (st, r) -> takes c (v_now v) (st_payload st) = false ->
  fstep e gunzip c v s (FStore b) = Some (s, []).
Proof.
  intros FF V [Hb _] P T. cbn [fstep]. unfold on_store. rewrite P. destruct st as [key [i|l] reply]; cbn [st_payload takes] in T.
  - unfold on_info_store. destruct (rf_net_id i =? fc_net c); cbn [negb andb] in *; [|reflexivity].
    destruct (be_val (ri_hash (rf_identity i)) =? fc_local c); cbn [negb andb] in *; [reflexivity|].
    destruct (N.ltb_spec (rf_published i + 3600000) (v_now v)); [reflexivity|lia].
  - rewrite FF. unfold on_lease_store. rewrite expired_valid, T; [reflexivity|]. destruct V as [V _]. lia.
Qed.

(** The rest of the outputs do not matter. *)
Lemma entrusted_more v s s' o o' r k : (forall x, In x o -> In x o') -> entrusted v s s' o r k -> entrusted v s s' o' r k.
Proof.
  intros I. unfold entrusted. destruct (nget r (fd_links s)) as [[|q]|]; intros H.
  - intros L. apply I. now apply H.
  - exact H.
  - intros L. destruct (H L) as [A B]. split; [now apply I|exact B].
Qed.
Lemma taken_sent e gunzip c v s b st r gw : fc_floodfill c = true -> env_ok v -> op_fits (FStore b) ->
  parse_store e gunzip b = Some (st, r) -> takes c (v_now v) (st_payload st) = true -> ack_router (st_reply st) = Some gw ->
  exists s' out, fstep e gunzip c v s (FStore b) = Some (s', out) /\
    (exists m, entrusted v s s' out gw (Expiring m (v_now v + 8000)) /\ acknowledges (st_reply st) m) /\
    exists m msg x rest, parse_short m = Some (msg, []) /\ m_type msg = DatabaseStore /\
      parse_store e gunzip (m_payload msg) = Some (mkStore (st_key st) (st_payload st) SrNone, rest) /\
      forall f, In f (match closest (fd_dht s') (v_target v (st_key st)) 3 with Some l => l | None => [] end) ->
        entrusted v s s' out f (Expiring m x).
Proof.
  intros FF V [Hb Hl] P T A. pose proof (parse_store_inv e gunzip b st r Hb P) as (Hk & Hr & Hp).
  destruct st as [key [i|l] reply]; cbn [st_key st_payload st_reply] in *; cbn [fstep]; unfold on_store; rewrite P.
  - destruct Hp as (z & data & rr & X & G & Pi & Lz). cbn [takes] in T.
    apply andb_prop in T as [T T3]. apply andb_prop in T as [T1 T2]. unfold on_info_store. apply N.leb_le in T3.
    rewrite T1. cbn [negb]. apply negb_true_iff in T2. rewrite T2. destruct (N.ltb_spec (rf_published i + 3600000) (v_now v)); [lia|].
    rewrite X, FF. cbn [negb].
    match goal with |- context [answer_and_flood e v ?s2 reply key ?k ?x] => set (s2' := s2); set (x' := x);
      destruct (answer_and_flood e v s2' reply key k x') as [s3 o3] eqn:E3 end.
    exists s3, (Discovered i z :: o3). split; [reflexivity|].
    assert (Fit : N.of_nat (length (ser_store key (KRouterInfo z) SrNone)) <= 65526) by (rewrite ser_store_length; unfold hash_ok in Hk; lia).
    destruct (flood_sends _ _ _ _ _ _ _ _ _ _ V Hr A Hk Fit E3) as [[m [B1 B2]] (m' & msg & B3 & B4 & B5 & B6)].
    pose proof (flood_tables _ _ _ _ _ _ _ _ _ E3) as (_ & _ & Ed & _). split.
    + exists m. split; [|exact B2]. apply (entrusted_more v s s3 o3); [intros y Hy; now right|exact B1].
    + exists m', msg, x', []. split; [exact B3|]. split; [exact B4|]. split.
      * rewrite B5. rewrite <- (app_nil_r (ser_store _ _ _)). apply (store_ri_roundtrip e gunzip key z data i rr); try assumption; [exact I|lia].
      * intros f Hf. rewrite Ed in Hf. apply (entrusted_more v s s3 o3); [intros y Hy; now right|]. now apply B6.
  - destruct Hp as (raw & X & Pl & _ & Lz). rewrite FF. unfold on_lease_store. cbn [takes] in T.
    rewrite expired_valid, T by (destruct V as [V _]; lia). cbn [negb]. rewrite X. cbv zeta.
    match goal with |- context [answer_and_flood e v ?s2 reply key ?k ?x] => set (s2' := s2); set (x' := x);
      destruct (answer_and_flood e v s2' reply key k x') as [s3 o3] eqn:E3 end.
    exists s3, o3. split; [reflexivity|].
    assert (Fit : N.of_nat (length (ser_store key (KLeaseSet2 raw) SrNone)) <= 65526) by (rewrite ser_store_length; unfold hash_ok in Hk; lia).
    destruct (flood_sends _ _ _ _ _ _ _ _ _ _ V Hr A Hk Fit E3) as [[m [B1 B2]] (m' & msg & B3 & B4 & B5 & B6)].
    pose proof (flood_tables _ _ _ _ _ _ _ _ _ E3) as (_ & _ & Ed & _). split.
    + exists m. split; assumption.
    + exists m', msg, x', r. split; [exact B3|]. split; [exact B4|]. split.
      * rewrite B5. now apply store_ls_raw.
      * intros f Hf. rewrite Ed in Hf. now apply B6.
Qed.

(** A floodfill goes on keeping a table of routers. *)
Lemma routers_kept e gunzip c v s o s' out t : fstep e gunzip c v s o = Some (s', out) -> fd_routers s = Some t ->
  exists t', fd_routers s' = Some t'.
Proof.
  intros H T. destruct o as [b|b|r|r|r|]; cbn [fstep] in H.
  - unfold on_store in H. destruct (parse_store e gunzip b) as [[[key [i|l] reply] r]|]; [| |injection H as <- _; eauto].
    + unfold on_info_store in H. destruct (negb (rf_net_id i =? fc_net c)); [injection H as <- _; eauto|].
      destruct (_ =? fc_local c); [injection H as <- _; eauto|]. destruct (_ <? v_now v); [injection H as <- _; eauto|].
      destruct (extract_raw true b) as [raw|]; [|discriminate]. destruct (negb (fc_floodfill c)); [injection H as <- _; cbn [fd_routers]; eauto|].
      match goal with H : context [answer_and_flood e v ?s2 reply key ?k ?x] |- _ =>
        destruct (answer_and_flood e v s2 reply key k x) as [s3 o3] eqn:E3 end.
      injection H as <- _. apply flood_tables in E3 as (_ & _ & _ & E3). rewrite E3. cbn [fd_routers]. rewrite T. cbn [option_map]. eauto.
    + destruct (fc_floodfill c); [|injection H as <- _; eauto]. unfold on_lease_store in H.
      destruct (ls_expired _ _); [injection H as <- _; eauto|]. destruct (extract_raw false b) as [raw|]; [|discriminate]. cbv zeta in H.
      match goal with H : Some (answer_and_flood ?a ?b ?s2 ?d ?e ?f ?g) = _ |- _ =>
        destruct (answer_and_flood a b s2 d e f g) as [s3 o3] eqn:E3 end.
      injection H as <- _. apply flood_tables in E3 as (_ & _ & _ & E3). rewrite E3. cbn [fd_routers]. eauto.
  - unfold on_lookup_message in H. destruct (negb _); [injection H as <- _; eauto|].
    destruct (parse_lookup b) as [[[ig key ty rp] r]|]; [|injection H as <- _; eauto].
    destruct ty; try (injection H as <- _; eauto; fail).
    unfold on_exploration in H. rewrite T in H.
    destruct rp; injection H as H; apply send_one_tables in H as (_ & _ & _ & H); rewrite H; eauto.
  - injection H as <- _. unfold on_established. cbn [fd_routers]. rewrite T. destruct (v_floodfill v r); cbn [option_map]; eauto.
  - injection H as <- _. unfold on_gone, with_links. cbn [fd_routers]. eauto.
  - injection H as <- _. unfold on_gone, with_links. cbn [fd_routers]. eauto.
  - injection H as <- _. unfold maintain. cbn [fd_routers]. eauto.
Qed.
