(** Stores, payloads, signatures and nested calls. *)
From Coq Require Import List NArith Bool Arith Lia ZArith ZifyBool ZifyNat ZifyN.
From Verif Require Import ListUtil Bytes PrimModel PrimProofs I2npModel GarlicModel EncModel TotalModel TotalSpec TotalProofs.
Import ListNotations.
Open Scope N_scope.
Open Scope cparser_scope.

Lemma agree_safe {A} (c : cparser A) p : (forall i, c i = lift p i) -> safe c p.
Proof.
  intros H. split.
  - intros i. rewrite H. unfold lift. destruct (p i) as [[a r]|]; discriminate.
  - intros i a r. rewrite H. unfold lift. destruct (p i) as [[a' r']|].
    + split; intros E0; injection E0 as -> ->; reflexivity.
    + split; discriminate.
Qed.

Lemma skipn_twice {A} a b (l : list A) : skipn a (skipn b l) = skipn (b + a) l.
Proof. revert l. induction b as [|b IH]; intros l; [reflexivity|]. destruct l; [now rewrite !skipn_nil|]. apply IH. Qed.
Lemma opt_bind {A B} (a : A) (f : A -> parser B) i : bind (opt (Some a)) f i = f a i.
Proof. reflexivity. Qed.

Section WithExt.
Variable e : ext.
Variable gunzip : bytes -> option bytes.

Lemma con_agree {A} s (c : cparser A) p i :
  (forall j, c j = lift p j) -> con s c i = lift (opt (option_map fst (p s))) i.
Proof.
  intros H. unfold con. rewrite H. unfold lift, opt. destruct (p s) as [[a r]|]; reflexivity.
Qed.

Lemma c_store_ok i : c_store e gunzip i = lift (parse_store e gunzip) i.
Proof.
  unfold c_store, parse_store. apply bind_lift. intros key r1 _.
  apply bind_lift. intros tb r2 _.
  destruct (store_of tb) as [ty|] eqn:Et.
  2:{ unfold lift, bind, opt, cbind. destruct (be_uint 4 r2) as [[? ?]|]; reflexivity. }
  eapply lift_app; [apply opt_bind|].
  unfold parse_store_reply.
  assert (R : forall (f : N -> cparser db_store) (k : store_reply -> parser db_store) i0,
    (forall token r, f token r =
       lift (bind (if token =? 0 then ret SrNone
          else bind (be_uint 4) (fun tunnel => bind (take 32) (fun router =>
            ret (if tunnel =? 0 then SrRouter token router else SrTunnel token tunnel router)))) k) r) ->
    cbind (lift (be_uint 4)) f i0 =
    lift (bind (bind (be_uint 4) (fun token => if token =? 0 then ret SrNone
          else bind (be_uint 4) (fun tunnel => bind (take 32) (fun router =>
            ret (if tunnel =? 0 then SrRouter token router else SrTunnel token tunnel router))))) k) i0).
  { intros f k i0 H. unfold cbind, lift, bind at 1 2. destruct (be_uint 4 i0) as [[t r]|]; [|reflexivity].
    rewrite H. unfold lift, bind at 1. reflexivity. }
  apply R. clear R. intros token r3.
  apply bind_agree.
  { destruct (token =? 0); [reflexivity|]. apply bind_lift. intros tn r4 _. apply bind_lift. intros. apply ret_agree. }
  intros reply r4 _. destruct ty; try reflexivity.
  - apply bind_lift. intros size r5 _. apply bind_lift. intros z r6 _.
    destruct (gunzip z) as [d|]; [|reflexivity].
    eapply lift_app; [apply opt_bind|].
    apply bind_agree; [apply con_agree; apply c_rinfo_ok|]. intros. apply ret_agree.
  - apply bind_agree; [apply c_ls_ok|]. intros. apply ret_agree.
Qed.

(** What an accepted store looks like, and that its payload is found again. *)
Lemma raw_of_store i s r : parse_store e gunzip i = Some (s, r) ->
  match st_payload s with
  | SpRouterInfo ri => exists raw d r' q, c_raw true i = Good raw q /\
      gunzip raw = Some d /\ parse_rinfo e d = Some (ri, r')
  | SpLeaseSet2 ls => exists raw, c_raw false i = Good raw raw /\ parse_ls e raw = Some (ls, r)
  end.
Proof.
  unfold parse_store. intros H.
  apply bind_inv in H as (key & r1 & H1 & H). apply bind_inv in H as (tb & r2 & H2 & H).
  apply bind_inv in H as (ty & r3 & H3 & H). unfold opt in H3.
  destruct (store_of tb) as [ty'|]; [|discriminate]. injection H3 as -> <-.
  apply bind_inv in H as (rep & r4 & H4 & H). unfold parse_store_reply in H4.
  apply bind_inv in H4 as (token & q1 & A1 & H4).
  assert (R : forall b, c_raw b i =
    (if b then (size <~ expect (be_uint 2) ;; expect (take (N.to_nat size))) else fun r => Good r r) r4).
  { intros b. unfold c_raw. rewrite (expect_step _ _ _ _ _ H1), (expect_step _ _ _ _ _ H2), (expect_step _ _ _ _ _ A1).
    destruct (token =? 0).
    - apply ret_inv in H4 as [_ ->]. rewrite cret_step. reflexivity.
    - apply bind_inv in H4 as (tn & q2 & A2 & H4). apply bind_inv in H4 as (ro & q3 & A3 & H4).
      apply ret_inv in H4 as [_ ->]. unfold cbind at 1.
      rewrite (expect_step _ _ _ _ _ A2), (expect_step _ _ _ _ _ A3). reflexivity. }
  destruct ty; try discriminate.
  - apply bind_inv in H as (size & r5 & H5 & H). apply bind_inv in H as (z & r6 & H6 & H).
    apply bind_inv in H as (d & r7 & H7 & H). apply bind_inv in H as (ri & r8 & H8 & H).
    apply ret_inv in H as [-> ->]. cbn [st_payload]. unfold opt in H7, H8.
    destruct (gunzip z) as [d'|] eqn:Eg; [|discriminate]. injection H7 as <- <-.
    destruct (parse_rinfo e d') as [[ri' q]|] eqn:Er; [|discriminate]. cbn in H8. injection H8 as -> ->.
    exists z, d', q. eexists. rewrite R, (expect_step _ _ _ _ _ H5). unfold expect. rewrite H6.
    split; [reflexivity|]. split; [exact Eg|]. congruence.
  - apply bind_inv in H as (ls & r5 & H5 & H). apply ret_inv in H as [-> ->]. cbn [st_payload].
    exists r4. rewrite R. auto.
Qed.

Lemma store_and_raw_ok i :
  match store_and_raw e gunzip i with
  | Panic => False
  | Refuse => parse_store e gunzip i = None
  | Good (s, raw) r => parse_store e gunzip i = Some (s, r) /\
      match st_payload s with
      | SpRouterInfo ri => exists d r', gunzip raw = Some d /\ parse_rinfo e d = Some (ri, r')
      | SpLeaseSet2 ls => parse_ls e raw = Some (ls, r)
      end
  end.
Proof.
  unfold store_and_raw, cbind at 1. rewrite c_store_ok. unfold lift.
  destruct (parse_store e gunzip i) as [[s r]|] eqn:Ep; [|reflexivity].
  apply raw_of_store in Ep. unfold cbind, con. destruct (st_payload s) as [ri|ls] eqn:Es.
  - destruct Ep as (raw & d & r' & q & -> & Hg & Hr). cbn. rewrite Es. eauto.
  - destruct Ep as (raw & -> & Hr). cbn. rewrite Es. auto.
Qed.

End WithExt.

Lemma c_next_key_ok i : c_next_key i = lift parse_next_key i.
Proof.
  unfold c_next_key, parse_next_key. apply bind_lift. intros x r1 _.
  apply bind_lift. intros flag r2 _. apply bind_lift. intros id r3 _.
  assert (B : forall n k, N.land (N.shiftr n k) 1 = if N.testbit n k then 1 else 0).
  { intros n k. replace 1 with (N.ones 1) at 1 by reflexivity. rewrite N.land_ones. cbn [N.pow].
    rewrite <- N.bit0_mod, N.shiftr_spec'. cbn. now destruct (N.testbit n k). }
  assert (B0 := B flag 0). rewrite N.shiftr_0_r in B0. rewrite B0.
  apply bind_agree.
  { destruct (N.testbit flag 0); cbn [N.eqb]; [|reflexivity].
    apply bind_lift. intros k r4 Hk. apply take_inv in Hk as [-> Lk].
    rewrite carray_step by lia. apply ret_agree. }
  intros key r4 _. cbv zeta. rewrite !B.
  destruct (N.testbit flag 1); [reflexivity|]. destruct (N.testbit flag 2); reflexivity.
Qed.

Lemma c_parameters_ok w i : c_parameters w i =
  match payload_parameters w with Some a => Good a i | None => Refuse end.
Proof.
  unfold c_parameters, payload_parameters. destruct (Nat.ltb_spec (length w) 10) as [|L]; [reflexivity|].
  rewrite cslice_step, carray_step, cslice_step, carray_step, cindex_step by (rewrite ?slice_len; lia).
  unfold slice. cbn [Nat.sub]. destruct (protocol_of (nth 9 w 0)); reflexivity.
Qed.
Lemma c_decompress_ok gunzip gz w i : c_decompress gunzip w i =
  match payload_decompress (mkGzip gz gunzip) w with Some a => Good a i | None => Refuse end.
Proof.
  unfold c_decompress, payload_decompress. destruct (Nat.ltb_spec (length w) 10) as [|L]; [reflexivity|].
  rewrite cslice_step, carray_step, cslice_step, carray_step, cindex_step by (rewrite ?slice_len; lia).
  unfold slice. cbn [Nat.sub gz_decompress].
  destruct (protocol_of (nth 9 w 0)); [|reflexivity]. destruct (gunzip w); reflexivity.
Qed.
Lemma c_tunnel_garlic_ok p i :
  (length p < 36)%nat /\ c_tunnel_garlic p i = Refuse \/
  exists tag k ct, p = tag ++ k ++ ct /\ length tag = 4%nat /\ length k = 32%nat /\
    c_tunnel_garlic p i = Good (k, ct) i.
Proof.
  unfold c_tunnel_garlic. destruct (Nat.ltb_spec (length p) 36) as [L|L]; [now left|right].
  rewrite cslice_step by lia. cbv beta.
  rewrite slice_len by lia. cbn [Nat.sub Nat.eqb cguard]. rewrite cret_step.
  rewrite cslice_step by lia.
  exists (firstn 4 p), (slice 4 36 p), (slice 36 (length p) p).
  split; [|split; [rewrite firstn_length; lia|split; [now rewrite slice_len by lia|reflexivity]]].
  unfold slice. cbn [Nat.sub].
  rewrite (firstn_all2 (n := length p - 36)) by (rewrite skipn_length; lia).
  rewrite <- (firstn_skipn 4 p) at 1. f_equal.
  rewrite <- (firstn_skipn 32 (skipn 4 p)) at 1. f_equal. now rewrite skipn_twice.
Qed.
Lemma c_blank_ok packet pl sl i :
  (length packet < pl + sl)%nat /\ c_blank packet pl sl i = Refuse \/
  exists head sig payload, packet = head ++ sig ++ payload /\ length sig = sl /\
    length payload = pl /\ c_blank packet pl sl i = Good (head ++ repeat 0 sl ++ payload) i.
Proof.
  unfold c_blank. destruct (Nat.ltb_spec (length packet) (pl + sl)) as [L|L]; [now left|right].
  rewrite !csub_step by lia. rewrite cslice_step by lia.
  rewrite carray_step by (rewrite slice_len, repeat_length; lia).
  set (st := (length packet - pl - sl)%nat).
  exists (firstn st packet), (firstn sl (skipn st packet)), (skipn (st + sl) packet).
  split.
  { rewrite <- (firstn_skipn st packet) at 1. f_equal.
    rewrite <- (firstn_skipn sl (skipn st packet)) at 1. f_equal.
    now rewrite skipn_twice. }
  split; [rewrite firstn_length, skipn_length; subst st; lia|].
  split; [rewrite skipn_length; subst st; lia|reflexivity].
Qed.

(** *** Nested calls *)
Lemma frame_depth_bound f : forall i, (3 * frame_depth f i <= 3 + length i)%nat.
Proof.
  induction f as [|f IH]; intros i; [cbn; lia|]. cbn [frame_depth].
  destruct i as [|t r]; [cbn; lia|]. destruct (existsb _ _); [cbn [length]; lia|].
  destruct ((bind (be_uint 2) (fun size => take (N.to_nat size))) r) as [[x r']|] eqn:E0; [|cbn [length]; lia].
  apply bind_inv in E0 as (size & q & H1 & H2). apply be_uint_length in H1.
  apply take_inv in H2 as [-> _]. rewrite app_length in H1. specialize (IH r'). cbn [length]. lia.
Qed.
Lemma skipped_S n : skipped (S n) = 1 :: 0 :: 0 :: skipped n.
Proof. reflexivity. Qed.
Lemma skipped_len n : length (skipped n) = (3 * n + 4)%nat.
Proof. induction n; [reflexivity|]. rewrite skipped_S. cbn [length]. lia. Qed.
Lemma skip_depth n : forall f, (n < f)%nat -> frame_depth f (skipped n) = S n.
Proof.
  induction n as [|n IH]; intros f L; (destruct f as [|f]; [lia|]).
  - reflexivity.
  - rewrite skipped_S. cbn [frame_depth existsb N.eqb Pos.eqb orb].
    change ((bind (be_uint 2) (fun size => take (N.to_nat size))) (0 :: 0 :: skipped n)) with (Some ([]:list N, skipped n)).
    cbv iota beta. f_equal. apply IH. lia.
Qed.
Lemma skip_block n : forall f, (n < f)%nat -> GarlicModel.parse_block f (skipped n) = Some (BAckRequest, []).
Proof.
  induction n as [|n IH]; intros f L; (destruct f as [|f]; [lia|]).
  - reflexivity.
  - rewrite skipped_S. cbn [GarlicModel.parse_block]. apply IH. lia.
Qed.
Lemma skip_parse n : parse_garlic (skipped n) = Some [BAckRequest].
Proof.
  unfold parse_garlic. destruct (length (skipped n)) as [|f] eqn:L0; [rewrite skipped_len in L0; lia|].
  cbn [parse_inner]. rewrite skip_block by (rewrite skipped_len; lia). reflexivity.
Qed.
Lemma padded_S n : padded (S n) = 254 :: 0 :: 0 :: padded n.
Proof. reflexivity. Qed.
Lemma padded_len n : length (padded n) = (3 * n + 3)%nat.
Proof. induction n; [reflexivity|]. rewrite padded_S. cbn [length]. lia. Qed.
Lemma pad_block f rest : GarlicModel.parse_block f (254 :: 0 :: 0 :: rest) = Some (BPadding [], rest).
Proof. destruct f; reflexivity. Qed.
Lemma padded_cons n : exists t, padded n = 254 :: t.
Proof. eexists. reflexivity. Qed.
Lemma pad_depth n : forall f, (n < f)%nat -> inner_depth f (padded n) = S n.
Proof.
  induction n as [|n IH]; intros f L; (destruct f as [|f]; [lia|]).
  - reflexivity.
  - rewrite padded_S. cbn [inner_depth]. rewrite pad_block.
    destruct (padded_cons n) as [t Et]. rewrite Et, <- Et. f_equal. apply IH. lia.
Qed.
Lemma pad_parse n : forall f acc, (n < f)%nat ->
  parse_inner f (padded n) acc = Some (acc ++ repeat (BPadding []) (S n)).
Proof.
  induction n as [|n IH]; intros f acc L; (destruct f as [|f]; [lia|]).
  - reflexivity.
  - rewrite padded_S. cbn [parse_inner]. rewrite pad_block.
    destruct (padded_cons n) as [t Et]. rewrite Et, <- Et. rewrite IH by lia.
    rewrite <- app_assoc. reflexivity.
Qed.

(** *** Sizes *)
Lemma c_short_ok i : c_short i = lift parse_short i.
Proof.
  unfold c_short, parse_short. apply bind_lift. intros size r1 _. do 3 (apply bind_lift; intros ? ? _).
  apply bind_cguard. intros G. rewrite csub_step by lia.
  replace (N.to_nat size - 9)%nat with (N.to_nat (size - 9)) by lia.
  do 2 (apply bind_lift; intros ? ? _). apply ret_agree.
Qed.
Lemma c_ntcp2_ok checks i : c_ntcp2_router_info checks i = lift Ntcp2Model.parse_nrouter_info i.
Proof.
  unfold c_ntcp2_router_info, Ntcp2Model.parse_nrouter_info. apply bind_lift. intros size r1 _.
  apply bind_cguard. intros G. apply bind_lift. intros flag r2 _.
  unfold csub16. replace (1 <=? size) with true by (symmetry; lia). rewrite cret_step.
  apply bind_lift. intros. apply ret_agree.
Qed.
Lemma two_bytes i n r : be_uint 2 i = Some (n, r) -> exists a b, i = a :: b :: r /\ n = a * 256 + b.
Proof.
  destruct i as [|a [|b t]]; try discriminate. intros H. cbn in H. injection H as <- <-.
  exists a, b. split; [reflexivity|]. cbn. lia.
Qed.
Lemma one_byte i n r : be_uint 1 i = Some (n, r) -> i = n :: r.
Proof.
  destruct i as [|a t]; try discriminate. intros H. cbn in H. injection H as <- <-. reflexivity.
Qed.
Lemma c_ssu2_ok e checks i :
  checks = true /\ (exists flag frag r, i = 0 :: 1 :: flag :: frag :: r) /\
    c_ssu2_router_info e checks i = Panic \/
  ~ (checks = true /\ exists flag frag r, i = 0 :: 1 :: flag :: frag :: r) /\
    c_ssu2_router_info e checks i = lift (Ssu2Model.s_router_info e) i.
Proof.
  assert (D : (checks = true /\ exists flag frag r, i = 0 :: 1 :: flag :: frag :: r) \/
              ~ (checks = true /\ exists flag frag r, i = 0 :: 1 :: flag :: frag :: r)).
  { destruct checks; [|right; intros [? _]; discriminate].
    destruct i as [|a [|b [|c [|d t]]]];
      try (right; intros (_ & ? & ? & ? & ?); discriminate).
    destruct (N.eq_dec a 0) as [->|Na]; [|right; intros (_ & ? & ? & ? & X); congruence].
    destruct (N.eq_dec b 1) as [->|Nb]; [|right; intros (_ & ? & ? & ? & X); congruence].
    left. eauto. }
  destruct D as [(-> & flag & frag & r & ->)|D].
  - left. split; [reflexivity|]. split; [eauto|]. reflexivity.
  - right. split; [exact D|]. unfold c_ssu2_router_info, Ssu2Model.s_router_info.
    apply bind_lift. intros size r1 H1. apply bind_cguard. intros G.
    apply bind_lift. intros flag r2 H2. apply bind_lift. intros frag r3 H3.
    apply two_bytes in H1 as (a & b & -> & ->). apply one_byte in H2 as ->. apply one_byte in H3 as ->.
    assert (S0 : forall f : N -> cparser Ssu2Model.block,
      cbind (csub16 checks (a * 256 + b) 2) f r3
      = f (if a * 256 + b =? 1 then 65535 else a * 256 + b - 2) r3).
    { intros f. unfold csub16. destruct (N.leb_spec 2 (a * 256 + b)).
      - replace (a * 256 + b =? 1) with false by (symmetry; lia). reflexivity.
      - assert (a * 256 + b = 1) as X by lia. rewrite X. destruct checks; [|reflexivity].
        exfalso. apply D. split; [reflexivity|].
        assert (a = 0) as -> by lia. assert (b = 1) as -> by lia. eauto. }
    rewrite S0. apply bind_lift. intros info r4 _.
    replace (N.land (flag / 2) 1) with (N.land (N.shiftr flag 1) 1) by (now rewrite N.shiftr_div_pow2).
    apply bind_cguard. intros _. apply bind_agree; [|intros; apply ret_agree].
    rewrite (con_agree _ _ (parse_rinfo e)) by apply c_rinfo_ok.
    unfold lift, opt. destruct (parse_rinfo e info) as [[? ?]|]; reflexivity.
Qed.

(** *** Delivery instructions *)
Lemma two_bits flag : N.land (N.shiftr flag 5) 3 =
  (if N.testbit flag 6 then 2 else 0) + (if N.testbit flag 5 then 1 else 0).
Proof.
  assert (T : forall n, N.land n 3 = (if N.testbit n 1 then 2 else 0) + (if N.testbit n 0 then 1 else 0)).
  { intros [|[[p|p|]|[p|p|]|]]; reflexivity. }
  rewrite T, !N.shiftr_spec'. reflexivity.
Qed.
Lemma take_none n i : take n i = None -> (length i < n)%nat.
Proof. unfold take. destruct (Nat.leb_spec n (length i)); [discriminate|auto]. Qed.
Lemma delivery_flags flag r :
  match parse_delivery (flag :: r) with
  | None => N.testbit flag 7 = true \/ N.testbit flag 4 = true \/
      (length r < match N.testbit flag 6, N.testbit flag 5 with
                  | false, false => 0 | true, true => 36 | _, _ => 32 end)%nat
  | Some (d, rest) => N.testbit flag 7 = false /\ N.testbit flag 4 = false /\
      match N.testbit flag 6, N.testbit flag 5, d with
      | false, false, DLocal => rest = r
      | false, true, DDestination h => r = h ++ rest /\ length h = 32%nat
      | true, false, DRouter h => r = h ++ rest /\ length h = 32%nat
      | true, true, DTunnel h t => exists w, r = h ++ w ++ rest /\ length h = 32%nat /\
          length w = 4%nat /\ t = be_val w
      | _, _, _ => False
      end
  end.
Proof.
  unfold parse_delivery.
  assert (B : be_uint 1 (flag :: r) = Some (flag, r)) by reflexivity.
  rewrite (bind_step _ _ _ _ _ B). unfold bind at 1, guard at 1.
  destruct (N.testbit flag 7); cbn [negb]; [now left|].
  unfold bind at 1, guard at 1. destruct (N.testbit flag 4); cbn [negb]; [now (right; left)|].
  rewrite two_bits. destruct (N.testbit flag 6), (N.testbit flag 5); cbn [N.add Pos.add Pos.succ].
  - unfold bind. destruct (take 32 r) as [[h r1]|] eqn:E1.
    2:{ right. right. apply take_none in E1. lia. }
    apply take_inv in E1 as [-> L1].
    unfold be_uint. destruct (take 4 r1) as [[w r2]|] eqn:E2.
    2:{ right. right. apply take_none in E2. rewrite app_length. lia. }
    apply take_inv in E2 as [-> L2]. cbn. split; [reflexivity|]. split; [reflexivity|]. exists w. auto.
  - unfold bind. destruct (take 32 r) as [[h r1]|] eqn:E1.
    2:{ right. right. apply take_none in E1. lia. }
    apply take_inv in E1 as [-> L1]. cbn. auto.
  - unfold bind. destruct (take 32 r) as [[h r1]|] eqn:E1.
    2:{ right. right. apply take_none in E1. lia. }
    apply take_inv in E1 as [-> L1]. cbn. auto.
  - cbn. auto.
Qed.
