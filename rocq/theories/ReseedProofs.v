(** * Proofs about SU3 files, archive names and asking servers *)
From Coq Require Import List NArith Bool Arith Lia.
From Verif Require Import Bytes ReseedModel ReseedSpec.
Import ListNotations.
Open Scope N_scope.

Lemma takeN_app : forall n a r, N.of_nat (length a) = n -> takeN n (a ++ r) = Some (a, r).
Proof.
  intros n a r <-. unfold takeN. rewrite app_length.
  replace (N.of_nat (length a + length r) <? N.of_nat (length a)) with false by (symmetry; apply N.ltb_ge; lia).
  rewrite Nat2N.id. apply take_app. reflexivity.
Qed.

Lemma takeN_inv : forall n i a r, takeN n i = Some (a, r) -> i = a ++ r /\ N.of_nat (length a) = n.
Proof.
  intros n i a r H. unfold takeN in H. destruct (_ <? _); [discriminate|].
  apply take_inv in H as [-> H]. split; [reflexivity|]. rewrite H. apply N2Nat.id.
Qed.

(** What the parser makes of a file. *)
Definition seen (x : su3file) (input : list N) (rest : nat) : su3 :=
  mkSu3 (f_content x) (f_content_kind x) (f_file_kind x) (firstn rest input) (f_signature x)
        (f_sig_kind x) (f_signer x) (f_version x).

Lemma parse_file : forall x t, file_ok x ->
  parse_inner (file_bytes x ++ t) =
  Some (seen x (file_bytes x ++ t) (length (f_signature x) + length t), t).
Proof.
  intros x t (K1 & K2 & K3 & L1 & L2 & L3 & L4 & L5).
  unfold parse_inner. set (input := file_bytes x ++ t) at 1 3.
  unfold file_bytes, signed_part. repeat (rewrite <- app_assoc; cbn [app]).
  change (73 :: 50 :: 80 :: 115 :: 117 :: 51 :: ?l) with (MAGIC ++ l).
  erewrite bind_step; [|apply (take_app 6 MAGIC); reflexivity]. cbv beta.
  rewrite guard_step by reflexivity.
  do 2 (erewrite bind_step; [|apply be_uint1_cons]; cbv beta).
  erewrite bind_step; [|apply be2_app; lia]. cbv beta.
  rewrite guard_step; [|unfold sig_kind_ok; apply orb_true_iff; destruct K1 as [K1| ->]; [left; apply N.leb_le; exact K1|right; reflexivity]].
  erewrite bind_step; [|apply be2_app; exact L4]. cbv beta.
  do 4 (erewrite bind_step; [|apply be_uint1_cons]; cbv beta).
  erewrite bind_step; [|apply be8_app; exact L3]. cbv beta.
  do 2 (erewrite bind_step; [|apply be_uint1_cons]; cbv beta).
  rewrite guard_step by (apply N.leb_le; exact K2).
  do 2 (erewrite bind_step; [|apply be_uint1_cons]; cbv beta).
  rewrite guard_step by (apply N.leb_le; exact K3).
  erewrite bind_step; [|apply take_app; exact L5]. cbv beta.
  erewrite bind_step; [|apply takeN_app; reflexivity]. cbv beta.
  erewrite bind_step; [|apply takeN_app; reflexivity]. cbv beta.
  erewrite bind_step; [|apply takeN_app; reflexivity]. cbv beta.
  erewrite bind_step; [|apply takeN_app; reflexivity]. cbv beta.
  unfold ret, seen. rewrite app_length. reflexivity.
Qed.

Lemma be1_inv : forall i v r, be_uint 1 i = Some (v, r) -> i = v :: r.
Proof.
  intros i v r H. destruct i as [|b i]; [discriminate|]. rewrite be_uint1_cons in H. congruence.
Qed.

Lemma parse_only : forall i s t, bytes_ok i -> parse_inner i = Some (s, t) ->
  exists x, file_ok x /\ i = file_bytes x ++ t.
Proof.
  intros i s t Hok H. unfold parse_inner in H.
  apply bind_inv in H as (a1 & r1 & E1 & H). apply take_inv in E1 as [Ei L1].
  apply bind_inv in H as (a2 & r2 & E2 & H). apply guard_inv in E2 as [G1 ->]. apply beq_eq in G1.
  rewrite Ei in Hok. apply bytes_ok_app in Hok as [_ Hok].
  apply bind_inv in H as (u1 & r3 & E3 & H). apply be1_inv in E3.
  apply bind_inv in H as (fm & r4 & E4 & H). apply be1_inv in E4.
  assert (O4 : bytes_ok r4) by (rewrite E3, E4 in Hok; inversion Hok as [|? ? _ X]; inversion X; assumption).
  apply bind_inv in H as (sk & r5 & E5 & H). apply be_uint_inv in E5 as (E5 & B5 & O5); [|exact O4].
  apply bind_inv in H as (a6 & r6 & E6 & H). apply guard_inv in E6 as [G2 ->].
  apply bind_inv in H as (sl & r7 & E7 & H). apply be_uint_inv in E7 as (E7 & B7 & O7); [|exact O5].
  apply bind_inv in H as (u2 & r8 & E8 & H). apply be1_inv in E8.
  apply bind_inv in H as (vl & r9 & E9 & H). apply be1_inv in E9.
  apply bind_inv in H as (u3 & r10 & E10 & H). apply be1_inv in E10.
  apply bind_inv in H as (il & r11 & E11 & H). apply be1_inv in E11.
  assert (O11 : bytes_ok r11 /\ vl < 256 /\ il < 256).
  { rewrite E8, E9, E10, E11 in O7. inversion O7 as [|? ? _ X1]. inversion X1 as [|? ? Y1 X2].
    inversion X2 as [|? ? _ X3]. inversion X3 as [|? ? Y2 X4]. auto. }
  destruct O11 as (O11 & Bv & Bi).
  apply bind_inv in H as (cl & r12 & E12 & H). apply be_uint_inv in E12 as (E12 & B12 & O12); [|exact O11].
  apply bind_inv in H as (u4 & r13 & E13 & H). apply be1_inv in E13.
  apply bind_inv in H as (fk & r14 & E14 & H). apply be1_inv in E14.
  apply bind_inv in H as (a15 & r15 & E15 & H). apply guard_inv in E15 as [G3 ->].
  apply bind_inv in H as (u5 & r16 & E16 & H). apply be1_inv in E16.
  apply bind_inv in H as (ck & r17 & E17 & H). apply be1_inv in E17.
  apply bind_inv in H as (a18 & r18 & E18 & H). apply guard_inv in E18 as [G4 ->].
  apply bind_inv in H as (u12 & r19 & E19 & H). apply take_inv in E19 as [E19 L19].
  apply bind_inv in H as (v & r20 & E20 & H). apply takeN_inv in E20 as [E20 L20].
  apply bind_inv in H as (si & r21 & E21 & H). apply takeN_inv in E21 as [E21 L21].
  apply bind_inv in H as (co & r22 & E22 & H). apply takeN_inv in E22 as [E22 L22].
  apply bind_inv in H as (sg & r23 & E23 & H). apply takeN_inv in E23 as [E23 L23].
  unfold ret in H. assert (r23 = t) as -> by congruence. clear H.
  exists (mkFile sk fk ck v si co sg u1 fm u2 u3 u4 u5 u12). split.
  - unfold file_ok. cbn [f_sig_kind f_file_kind f_content_kind f_version f_signer f_content f_signature f_u12].
    rewrite L20, L21, L22, L23. unfold sig_kind_ok in G2. apply orb_true_iff in G2.
    split; [destruct G2 as [G2|G2]; [left; apply N.leb_le; exact G2|right; apply N.eqb_eq; exact G2]|].
    split; [apply N.leb_le; exact G3|]. split; [apply N.leb_le; exact G4|].
    split; [exact Bv|]. split; [exact Bi|].
    split; [exact B12|]. split; [exact B7|exact L19].
  - unfold file_bytes, signed_part. cbn [f_sig_kind f_file_kind f_content_kind f_version f_signer f_content f_signature f_u12 f_u1 f_fmt f_u2 f_u3 f_u4 f_u5].
    rewrite L20, L21, L22, L23. rewrite Ei, G1, E3, E4, E5, E7, E8, E9, E10, E11, E12, E13, E14, E16, E17, E19, E20, E21, E22, E23.
    repeat (rewrite <- app_assoc; cbn [app]). reflexivity.
Qed.

(** ** Names *)

Lemma pieces_no : forall s p, In p (pieces s) -> ~ In 47 p.
Proof.
  induction s as [|c s IH]; intros p H; cbn [pieces] in H.
  - destruct H as [<-|[]]. intros [].
  - destruct (N.eqb_spec c 47) as [->|Hc].
    + destruct H as [<-|H]; [intros []|exact (IH p H)].
    + destruct (pieces s) as [|q qs] eqn:E.
      * destruct H as [<-|[]]. intros [->|[]]. congruence.
      * destruct H as [<-|H].
        -- intros [->|X]; [congruence|]. apply (IH q); [left; reflexivity|exact X].
        -- apply IH. right. exact H.
Qed.

Lemma pieces_ne : forall s, pieces s <> [].
Proof.
  intros [|c s]; cbn [pieces]; [discriminate|]. destruct (c =? 47); [discriminate|]. destruct (pieces s); discriminate.
Qed.

Lemma slashed_pieces : forall s, slashed (pieces s) = s.
Proof.
  induction s as [|c s IH]; [reflexivity|]. cbn [pieces]. destruct (N.eqb_spec c 47) as [->|Hc].
  - destruct (pieces s) eqn:E; [destruct (pieces_ne s E)|]. cbn [slashed] in *. cbn [app]. rewrite IH. reflexivity.
  - destruct (pieces s) as [|q qs] eqn:E; [destruct (pieces_ne s E)|]. destruct qs; cbn [slashed] in *; cbn [app]; rewrite IH; reflexivity.
Qed.

Lemma pieces_app : forall p s, ~ In 47 p -> pieces (p ++ 47 :: s) = p :: pieces s.
Proof.
  induction p as [|c p IH]; intros s H; [reflexivity|]. cbn [app pieces].
  destruct (N.eqb_spec c 47) as [->|_]; [destruct H; left; reflexivity|].
  rewrite IH; [reflexivity|]. intros X. apply H. right. exact X.
Qed.

Lemma pieces_one : forall p, ~ In 47 p -> pieces p = [p].
Proof.
  induction p as [|c p IH]; intros H; [reflexivity|]. cbn [pieces].
  destruct (N.eqb_spec c 47) as [->|_]; [destruct H; left; reflexivity|].
  rewrite IH; [reflexivity|]. intros X. apply H. right. exact X.
Qed.

Lemma pieces_slashed : forall ps, ps <> [] -> (forall p, In p ps -> ~ In 47 p) -> pieces (slashed ps) = ps.
Proof.
  induction ps as [|p ps IH]; intros N H; [congruence|]. destruct ps as [|q ps].
  - apply pieces_one, H. left. reflexivity.
  - change (slashed (p :: q :: ps)) with (p ++ 47 :: slashed (q :: ps)).
    rewrite pieces_app by (apply H; left; reflexivity). rewrite IH; [reflexivity|discriminate|].
    intros x Hx. apply H. right. exact Hx.
Qed.

Lemma move_none : forall ps, fold_left move ps None = None.
Proof. induction ps as [|p ps IH]; [reflexivity|exact IH]. Qed.

Lemma stays_move : forall ps d, stays d ps = true <-> fold_left move ps (Some d) <> None.
Proof.
  induction ps as [|p ps IH]; intros d; cbn [stays fold_left]; [split; [discriminate|reflexivity]|].
  unfold move at 2. destruct (beq p [] || beq p [46]); [apply IH|].
  destruct (beq p [46; 46]).
  - destruct d; [rewrite move_none; split; congruence|apply IH].
  - apply IH.
Qed.

Lemma enclosed_iff : forall s n, enclosed_name s = Some n <-> n = s /\ harmless s /\ ~ In 0 s.
Proof.
  intros s n. unfold enclosed_name. destruct (existsb (N.eqb 0) s) eqn:E.
  - split; [discriminate|]. intros (_ & _ & X). exfalso. apply X. apply existsb_exists in E as (y & Y & Z).
    apply N.eqb_eq in Z. subst y. exact Y.
  - assert (X : ~ In 0 s).
    { intros X. assert (existsb (N.eqb 0) s = true) by (apply existsb_exists; exists 0; split; [exact X|reflexivity]). congruence. }
    assert (A : forall b : bool, (if b then Some s else None) = Some n <-> b = true /\ n = s).
    { intros []; split; intros H; [injection H as <-; auto|destruct H as [_ ->]; reflexivity|discriminate|destruct H; discriminate]. }
    assert (Hd : forall c t, s = c :: t -> hd [] (pieces s) <> [] <-> c <> 47).
    { intros c t ->. cbn [pieces]. destruct (N.eqb_spec c 47) as [->|Hc]; [split; intros Y; exfalso; apply Y; reflexivity|].
      destruct (pieces t); (split; [auto|discriminate]). }
    assert (U : forall ps, s = slashed ps -> (forall p, In p ps -> ~ In 47 p) -> ps = [] \/ ps = pieces s).
    { intros ps -> F. destruct ps; [left; reflexivity|right]. symmetry. apply pieces_slashed; [discriminate|exact F]. }
    destruct s as [|c t].
    + rewrite A. split.
      * intros [_ ->]. split; [reflexivity|]. split; [|exact X]. exists []. split; [reflexivity|].
        split; [intros p []|]. split; [left; reflexivity|discriminate].
      * intros (-> & _). auto.
    + destruct (N.eq_dec c 47) as [->|Hc].
      * split; [discriminate|]. intros (_ & (ps & S1 & F & [S2|S2] & _) & _); [discriminate|].
        destruct (U ps S1 F) as [->| ->]; [discriminate|]. exfalso. apply S2. reflexivity.
      * apply N.eqb_neq in Hc as Hc'. rewrite Hc'. rewrite A, stays_move. split.
        -- intros [S ->]. split; [reflexivity|]. split; [|exact X]. exists (pieces (c :: t)).
           split; [symmetry; apply slashed_pieces|]. split; [apply pieces_no|]. split; [right; apply (Hd c t eq_refl); exact Hc|exact S].
        -- intros (-> & (ps & S1 & F & S2 & S3) & _). split; [|reflexivity].
           destruct (U ps S1 F) as [->| <-]; [discriminate|exact S3].
Qed.

Lemma read_entry_iff : forall z x, read_entry z = Some x <-> is_router z x.
Proof.
  intros z [n d]. unfold read_entry, is_router. cbn [fst snd]. split.
  - destruct (enclosed_name (z_name z)) as [m|] eqn:E; [|discriminate]. apply enclosed_iff in E as (-> & H & X).
    destruct (z_file z); [|discriminate]. destruct (z_data z); [|discriminate].
    intros Y. assert (z_name z = n) by congruence. assert (l = d) by congruence. subst. auto.
  - intros (F & D & <- & H & X). assert (E : enclosed_name (z_name z) = Some (z_name z)) by (apply enclosed_iff; auto).
    rewrite E, F, D. reflexivity.
Qed.

(** ** Asking *)
Section Asking.
Context (unzip : list N -> option (list (option zentry))) (check : list N -> list N -> list N -> option bool).
Context (answer : nat -> reply).
Open Scope nat_scope.

Definition ok_reply (r : reply) (l : list rinfo) : Prop :=
  exists b, r = Body b /\ snd (parse_reseed unzip check b false) = Good l.

Lemma reply_cases : forall r,
  match take_reply unzip check r with
  | Good l => ok_reply r l
  | Bad => useless unzip check r
  | Crash => exists b, r = Body b /\ snd (parse_reseed unzip check b false) = Crash
  end.
Proof.
  intros [| | |b]; cbn; auto. destruct (snd (parse_reseed unzip check b false)) eqn:E.
  - exists b. auto.
  - reflexivity.
  - exists b. auto.
Qed.

Lemma ask_grows : forall picks n tried asked res, ask unzip check answer picks n tried = (asked, res) ->
  forall x, In x tried -> In x asked.
Proof.
  induction picks as [|y picks IH]; intros n tried asked res H x Hx; destruct n; cbn [ask] in H;
    try (injection H as <- _; exact Hx).
  destruct (existsb (Nat.eqb y) tried); [exact (IH _ _ _ _ H x Hx)|].
  destruct (take_reply unzip check (answer y)).
  - injection H as <- _. apply in_app_iff. auto.
  - apply (IH _ _ _ _ H x). apply in_app_iff. auto.
  - injection H as <- _. apply in_app_iff. auto.
Qed.

Lemma ask_spec : forall picks tries tried asked res,
  ask unzip check answer picks tries tried = (asked, res) -> NoDup tried ->
  (forall p, In p tried -> useless unzip check (answer p)) ->
  NoDup asked /\ (forall p, In p asked -> In p tried \/ In p picks) /\
  match res with
  | Asking => length asked < length tried + tries /\ (forall p, In p asked -> useless unzip check (answer p)) /\
              (forall p, In p picks -> In p asked)
  | Failed => length asked = length tried + tries /\ (forall p, In p asked -> useless unzip check (answer p))
  | Crashed => length asked <= length tried + tries /\ exists before p b, asked = before ++ [p] /\
      (forall q, In q before -> useless unzip check (answer q)) /\
      answer p = Body b /\ snd (parse_reseed unzip check b false) = Crash
  | Reseeded l => length asked <= length tried + tries /\ exists before p, asked = before ++ [p] /\
      (forall q, In q before -> useless unzip check (answer q)) /\ ok_reply (answer p) l
  end.
Proof.
  induction picks as [|p picks IH]; intros tries tried asked res H ND U; destruct tries as [|k]; cbn [ask] in H.
  - injection H as <- <-. split; [exact ND|]. split; [auto|]. split; [lia|exact U].
  - injection H as <- <-. split; [exact ND|]. split; [auto|]. split; [lia|]. split; [exact U|intros p []].
  - injection H as <- <-. split; [exact ND|]. split; [auto|]. split; [lia|exact U].
  - destruct (existsb (Nat.eqb p) tried) eqn:E.
    + apply existsb_exists in E as (q & Hq & E). apply Nat.eqb_eq in E. subst q.
      pose proof (ask_grows _ _ _ _ _ H p Hq) as G. apply IH in H as (N1 & N2 & N3); [|exact ND|exact U]. split; [exact N1|].
      split; [intros q Q; destruct (N2 q Q); [auto|right; right; assumption]|].
      destruct res; [|exact N3|exact N3|exact N3]. destruct N3 as (A & B & C). split; [exact A|]. split; [exact B|].
      intros q [<-|Q]; [exact G|exact (C q Q)].
    + assert (NI : ~ In p tried).
      { intros X. assert (existsb (Nat.eqb p) tried = true) by (apply existsb_exists; exists p; split; [exact X|apply Nat.eqb_refl]). congruence. }
      assert (ND' : NoDup (tried ++ [p])).
      { apply NoDup_rev in ND. rewrite <- (rev_involutive (tried ++ [p])). apply NoDup_rev. rewrite rev_app_distr. cbn [rev app].
        constructor; [rewrite <- in_rev; exact NI|exact ND]. }
      assert (IN : forall q, In q (tried ++ [p]) -> In q tried \/ In q (p :: picks)).
      { intros q Q. apply in_app_iff in Q as [Q|[<-|[]]]; [auto|right; left; reflexivity]. }
      pose proof (reply_cases (answer p)) as RC.
      destruct (take_reply unzip check (answer p)) as [| |l]; [injection H as <- <-| |injection H as <- <-].
      * split; [exact ND'|]. split; [exact IN|]. split; [rewrite app_length; cbn [length]; lia|].
        destruct RC as (b & B1 & B2). exists tried, p, b. auto.
      * assert (G : In p asked) by (apply (ask_grows _ _ _ _ _ H), in_app_iff; right; left; reflexivity).
        apply IH in H as (N1 & N2 & N3).
        -- split; [exact N1|]. split.
           ++ intros q Q. destruct (N2 q Q) as [X|X]; [apply IN; exact X|right; right; exact X].
           ++ rewrite app_length in N3. cbn [length] in N3. replace (length tried + 1 + k) with (length tried + S k) in N3 by lia.
              destruct res; [|exact N3|exact N3|exact N3]. destruct N3 as (A & B & C). split; [exact A|]. split; [exact B|].
              intros q [<-|Q]; [exact G|exact (C q Q)].
        -- exact ND'.
        -- intros q Q. apply in_app_iff in Q as [Q|[<-|[]]]; [exact (U q Q)|exact RC].
      * split; [exact ND'|]. split; [exact IN|]. split; [rewrite app_length; cbn [length]; lia|]. exists tried, p. auto.
Qed.
End Asking.
