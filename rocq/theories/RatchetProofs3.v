(** Receiving: any order within the window, and no tag twice. *)
From Coq Require Import List NArith Bool Arith Lia.
From Coq Require Import ZifyBool ZifyNat ZifyN.
From Verif Require Import Bytes ListUtil NMap GarlicModel RatchetModel RatchetSpec RatchetProofs RatchetProofs2.
Import ListNotations.
Open Scope N_scope.

Lemma draws_spec c k : forall n t,
  issued c k t ->
  draws c n t = map (fun i => if i <? 65535 then Some (nth_entry c k (ts_id t) i) else None)
                    (nseq (ts_index t) n).
Proof.
  induction n as [|n IH]; intros t Ht; cbn [draws nseq map]; [reflexivity|].
  destruct (next_entry c t) as [t' [e|]] eqn:E; cbn [fst snd].
  - pose proof (next_entry_some _ _ _ _ _ Ht E) as (-> & Ht' & Hi & Hid & _ & Hlt).
    replace (ts_index t <? 65535) with true by lia. rewrite IH by assumption. now rewrite Hi, Hid.
  - destruct (next_entry_none _ _ _ E) as [-> Hx]. rewrite IH by assumption. rewrite Hx.
    cbn [N.ltb N.compare Pos.compare Pos.compare_cont]. f_equal.
    assert (forall m a, 65535 <= a ->
      map (fun i => if i <? 65535 then Some (nth_entry c k (ts_id t) i) else None) (nseq a m)
      = repeat None m) as Hr.
    { induction m as [|m IHm]; intros a Ha; cbn [nseq map repeat]; [reflexivity|].
      replace (a <? 65535) with false by lia. f_equal. apply IHm. lia. }
    rewrite !Hr by lia. reflexivity.
Qed.

(** ** Maps filled from lists *)

Lemma nget_put_entries_other m l tag :
  ~ In tag (map e_tag l) -> nget tag (put_entries m l) = nget tag m.
Proof.
  unfold put_entries. revert m. induction l as [|e l IH]; intros m H; cbn [fold_left]; [reflexivity|].
  cbn in H. rewrite IH by tauto. apply nget_nput_other. intro E. apply H. now left.
Qed.
Lemma nget_put_entries_in m l e :
  NoDup (map e_tag l) -> In e l -> nget (e_tag e) (put_entries m l) = Some e.
Proof.
  unfold put_entries. revert m. induction l as [|x l IH]; intros m Hn Hin; [destruct Hin|].
  cbn [map] in Hn. inversion Hn as [|? ? Hx Hn']; subst. cbn [fold_left].
  destruct Hin as [->|Hin]; [|now apply IH].
  fold (put_entries (nput (e_tag e) e m) l). rewrite nget_put_entries_other by assumption.
  apply nget_nput_same.
Qed.

Lemma nget_In_nkeys {A} t (m : nmap A) x : nget t m = Some x -> In t (nkeys m).
Proof.
  induction m as [|[k v] m IH]; cbn; [discriminate|].
  destruct (t =? k) eqn:E; [intros _; left; lia|]. intro H. right. now apply IH.
Qed.

(** ** The window *)

Lemma existsb_eqb_In i l : existsb (N.eqb i) l = true <-> In i l.
Proof.
  rewrite existsb_exists. split.
  - intros (x & Hx & E). apply N.eqb_eq in E. now subst.
  - intro H. exists i. split; [assumption|apply N.eqb_refl].
Qed.

Lemma stream_tags_nodup c k set : distinct_tags c k set -> forall n a,
  a + N.of_nat n <= 65535 -> NoDup (map e_tag (stream_from c k set a n)).
Proof.
  intro Hd. unfold stream_from. induction n as [|n IH]; intros a Ha; cbn [nseq map]; constructor.
  - rewrite in_map_iff. intros (e & He & Hin). apply in_map_iff in Hin as (j & <- & Hj).
    apply nseq_In in Hj. apply Hd in He; lia.
  - apply IH. lia.
Qed.

Lemma handle_blocks_plain c remote now np : forall bs i g s,
  Forall (fun b => match b with BNextKey _ => False | _ => True end) bs ->
  handle_blocks c remote now np i g s bs = (g, s, Ok tt).
Proof.
  induction bs as [|b bs IH]; intros i g s H; cbn [handle_blocks]; [reflexivity|].
  inversion H as [|? ? Hb H']; subst. destruct b; try (now apply IH). destruct Hb.
Qed.

Lemma le_bytes_length n v : length (le_bytes n v) = n.
Proof. unfold le_bytes. now rewrite rev_length, be_bytes_length. Qed.

Lemma open_es_wire c e p : rcrypt_ok c -> open_es c e (es_wire c e p) = Ok p.
Proof.
  intros (_ & _ & _ & _ & _ & _ & Hop & _). unfold open_es, es_wire.
  set (ct := aseal _ _ _ _ _).
  rewrite app_assoc. rewrite app_length.
  assert (length (be_bytes 4 (8 + N.of_nat (length ct)) ++ le_bytes 8 (e_tag e)) = 12)%nat as Hl.
  { rewrite app_length, be_bytes_length, le_bytes_length. reflexivity. }
  rewrite Hl. replace (12 + length ct <? 12)%nat with false by lia.
  rewrite <- Hl, skipn_exact. unfold ct. now rewrite Hop.
Qed.

Lemma ready_cons w seen i j :
  ready w (i :: seen) j =
  negb (j =? i) && negb (existsb (N.eqb j) seen) && (j <? N.min max_tags (w + N.of_nat (length seen) + 1)).
Proof.
  unfold ready. cbn [existsb length]. rewrite negb_orb.
  now replace (w + N.of_nat (S (length seen))) with (w + N.of_nat (length seen) + 1) by lia.
Qed.

Lemma receives_iss c k set w seen s : receives c k set w seen s -> issued c k (se_recv s).
Proof. intro H. split; [apply (rc_ctx _ _ _ _ _ _ H)|]. rewrite (rc_idx _ _ _ _ _ _ H). unfold max_tags. lia. Qed.

Lemma receives_arrive c k set w seen s remote now np g i payload :
  rcrypt_ok c -> distinct_tags c k set -> receives c k set w seen s -> i < 65535 -> plain payload ->
  let e := nth_entry c k set i in
  exists g' s' r, sess_decrypt c remote now np g s (e_tag e) (es_wire c e payload) = (g', s', r) /\
  if ready w seen i
  then r = Ok (set, i, payload) /\ receives c k set w (i :: seen) s'
  else (exists x, r = Err x) /\ receives c k set w seen s'.
Proof.
  intros Hc Hd H Hi (bs & Hbs & Hpl) e. unfold sess_decrypt.
  unfold e at 1 3. rewrite (rc_ent _ _ _ _ _ _ H i Hi).
  destruct (ready w seen i) eqn:R.
  - unfold ready in R. apply andb_prop in R as [R1 R2]. apply negb_true_iff in R1.
    assert (~ In i seen) as Hni by (intro Q; apply existsb_eqb_In in Q; congruence).
    assert (i < ts_index (se_recv s)) as Hii by (rewrite (rc_idx _ _ _ _ _ _ H); lia).
    fold e. unfold refill. destruct (next_entry c (se_recv s)) as [t [e1|]] eqn:En.
    + pose proof (next_entry_some _ _ _ _ _ (receives_iss _ _ _ _ _ _ H) En) as (He1 & Ht & Htx & Htid & _ & Hlt).
      rewrite (rc_set _ _ _ _ _ _ H) in He1.
      rewrite open_es_wire, Hbs, handle_blocks_plain by assumption.
      do 3 eexists. split; [reflexivity|]. split.
      * unfold e. now rewrite nth_entry_set, nth_entry_index.
      * destruct H as [K1 K2 K3 K4 K5 K6 K7]. constructor; cbn [se_nsr se_expiring se_recv se_entries length]; auto.
        -- congruence.
        -- apply Ht.
        -- unfold max_tags in *. lia.
        -- intros j [<-|Hj]; [lia|]. apply K6 in Hj. lia.
        -- intros j Hj. rewrite ready_cons.
           destruct (N.eq_dec j (ts_index (se_recv s))) as [->|Hne].
           ++ rewrite <- He1, nget_nput_same.
              replace (ts_index (se_recv s) =? i) with false by lia. cbn [negb andb].
              destruct (existsb (N.eqb (ts_index (se_recv s))) seen) eqn:Q.
              { apply existsb_eqb_In, K6 in Q. lia. }
              cbn [negb andb]. unfold max_tags in *.
              now replace (ts_index (se_recv s) <? N.min 65535 (w + N.of_nat (length seen) + 1)) with true by lia.
           ++ rewrite nget_nput_other.
              2: { rewrite He1. intro Q. apply Hd in Q; unfold max_tags in *; lia. }
              destruct (j =? i) eqn:Ej.
              ** assert (j = i) as -> by lia. unfold e. now rewrite nget_ndel_same.
              ** rewrite nget_ndel_other by (unfold e; intro Q; apply Hd in Q; unfold max_tags in *; lia).
                 rewrite K7 by assumption. cbn [negb andb]. unfold ready.
                 replace (j <? N.min max_tags (w + N.of_nat (length seen) + 1))
                    with (j <? N.min max_tags (w + N.of_nat (length seen))) by lia. reflexivity.
    + destruct (next_entry_none _ _ _ En) as [-> Hx].
      rewrite open_es_wire, Hbs, handle_blocks_plain by assumption.
      do 3 eexists. split; [reflexivity|]. split.
      * unfold e. now rewrite nth_entry_set, nth_entry_index.
      * destruct H as [K1 K2 K3 K4 K5 K6 K7]. constructor; cbn [se_nsr se_expiring se_recv se_entries length]; auto.
        -- unfold max_tags in *. lia.
        -- intros j [<-|Hj]; [lia|]. now apply K6.
        -- intros j Hj. rewrite ready_cons. destruct (j =? i) eqn:Ej.
           ++ assert (j = i) as -> by lia. unfold e. now rewrite nget_ndel_same.
           ++ rewrite nget_ndel_other by (unfold e; intro Q; apply Hd in Q; unfold max_tags in *; lia).
              rewrite K7 by assumption. cbn [negb andb]. unfold ready, max_tags in *.
              replace (j <? N.min 65535 (w + N.of_nat (length seen) + 1))
                    with (j <? N.min 65535 (w + N.of_nat (length seen))) by lia. reflexivity.
  - assert (se_nsr s = NInactive \/ exists x m l, se_nsr s = NActive x m l /\ nget (e_tag e) m = None) as Hn.
    { pose proof (rc_nsr _ _ _ _ _ _ H i Hi) as Q. destruct (se_nsr s) as [|x m l]; [now left|right].
      exists x, m, l. split; [reflexivity|]. destruct (nget (e_tag e) m) eqn:En; [|reflexivity].
      exfalso. apply Q. eapply nget_In_nkeys; eassumption. }
    assert (nsr_decrypt c (se_nsr s) (e_tag e) (es_wire c e payload) = (se_nsr s, Err EInvalidState)) as E.
    { unfold nsr_decrypt. destruct Hn as [->|(x & m & l & -> & Hn)]; [reflexivity|]. now rewrite Hn. }
    fold e. rewrite E. do 3 eexists. split; [reflexivity|].
    split; [now eexists|]. destruct H as [K1 K2 K3 K4 K5 K6 K7]. now constructor.
Qed.

Lemma receives_encrypt c k set w seen s bs p :
  receives c k set w seen s -> receives c k set w seen (fst (sess_encrypt c s bs p)).
Proof.
  intro H. unfold sess_encrypt. destruct H.
  repeat match goal with |- context [match ?x with _ => _ end] => destruct x end;
    cbn [fst]; now constructor.
Qed.

Lemma del_tags_other {A} (l : list N) t : ~ In t l -> forall m : nmap A, nget t (del_tags m l) = nget t m.
Proof.
  unfold del_tags. induction l as [|x l IH]; intros H m; cbn [fold_left]; [reflexivity|].
  cbn in H. rewrite IH by tauto. apply nget_ndel_other. intro Q. apply H. now left.
Qed.
Lemma expire_other now t : forall l g m,
  (forall x, In x l -> ~ In t (snd x)) ->
  nget t (snd (expire now l g m)) = nget t m /\
  (forall x, In x (fst (fst (expire now l g m))) -> In x l).
Proof.
  induction l as [|[c0 l'] l IH]; intros g m H; cbn [expire]; [cbn; auto|].
  destruct (_ <? _); [cbn [fst snd]; auto|].
  destruct (IH (del_tags g l') (del_tags m l')) as [A B]; [intros x Hx; apply H; now right|].
  split; [|intros x Hx; right; auto]. rewrite A. apply del_tags_other. apply (H (c0, l')). now left.
Qed.

Lemma receives_maintain c k set w seen s now g :
  receives c k set w seen s -> receives c k set w seen (snd (sess_maintain now g s)).
Proof.
  intro H. unfold sess_maintain.
  set (z := match se_nsr s with
            | NInactive => (NInactive, g)
            | NActive created entries _ =>
                if now - created <? NSR_MAX_AGE then (se_nsr s, g)
                else (NInactive, del_tags g (nkeys entries)) end).
  assert (fst z = se_nsr s \/ fst z = NInactive) as Hz.
  { unfold z. destruct (se_nsr s); [now right|]. destruct (_ <? _); cbn; auto. }
  destruct z as [n g1]. cbn [fst] in Hz.
  assert (forall i, i < 65535 ->
          nget (e_tag (nth_entry c k set i)) (snd (expire now (se_expiring s) g1 (se_entries s)))
          = nget (e_tag (nth_entry c k set i)) (se_entries s)) as He.
  { intros i Hi. apply expire_other. intros x Hx. now apply (rc_exp _ _ _ _ _ _ H). }
  assert (forall x, In x (fst (fst (expire now (se_expiring s) g1 (se_entries s)))) -> In x (se_expiring s)) as Hx.
  { assert (forall l g m x, In x (fst (fst (expire now l g m))) -> In x l) as Q.
    { induction l as [|[c0 l'] l IH]; intros g0 m x; cbn [expire]; [cbn; auto|].
      destruct (_ <? _); [cbn [fst snd]; auto|]. intro Q. right. now apply IH in Q. }
    intros x. apply Q. }
  destruct (expire now (se_expiring s) g1 (se_entries s)) as [[x g2] m]. cbn [fst snd] in *.
  destruct H as [K1 K2 K3 K4 K5 K6 K7]. constructor; cbn [se_nsr se_expiring se_recv se_entries]; auto.
  - destruct Hz as [->| ->]; [assumption|]. intros i _ [].
  - intros i Hi. rewrite He by assumption. now apply K7.
Qed.

Lemma deliver_wanted c k set w remote np : rcrypt_ok c -> distinct_tags c k set -> forall ops g s seen,
  receives c k set w seen s ->
  Forall (fun o => match o with RArrive _ i p => i < max_tags /\ plain p | _ => True end) ops ->
  deliver c remote k set np g s ops = wanted w set seen ops.
Proof.
  intros Hc Hd. induction ops as [|o ops IH]; intros g s seen H Hf; [reflexivity|].
  inversion Hf as [|? ? Ho Hf']; subst. destruct o as [now i p|bs p|now]; cbn [deliver wanted].
  - destruct Ho as [Hi Hp].
    destruct (receives_arrive c k set w seen s remote now np (ndel (e_tag (nth_entry c k set i)) g) i p Hc Hd H Hi Hp)
      as (g' & s' & r & E & Q). rewrite E. destruct (ready w seen i).
    + destruct Q as [-> Q]. f_equal. now apply IH.
    + destruct Q as [[x ->] Q]. f_equal. now apply IH.
  - pose proof (receives_encrypt c k set w seen s bs p H) as Q. destruct (sess_encrypt c s bs p). now apply IH.
  - pose proof (receives_maintain c k set w seen s now g H) as Q. destruct (sess_maintain now g s). now apply IH.
Qed.

(** ** Where such sessions come from *)

Lemma e_tag_set c k s s' i : e_tag (nth_entry c k s i) = e_tag (nth_entry c k s' i).
Proof. unfold nth_entry. now destruct (ratchet_once _ _) as [? [? ?]]. Qed.

(** The first 4096 entries, put into a map that holds none of the tags *)
Lemma stream_in_map c k set m :
  distinct_tags c k set -> apart c k set (nkeys m) -> forall i, i < max_tags ->
  nget (e_tag (nth_entry c k set i)) (put_entries m (stream_from c k set 0 (N.to_nat NUM_TAGS))) =
  if i <? 4096 then Some (nth_entry c k set i) else None.
Proof.
  intros Hd Ha i Hi. assert (N.of_nat (N.to_nat NUM_TAGS) = 4096) as E by reflexivity.
  generalize dependent (N.to_nat NUM_TAGS). intros n En. unfold max_tags in *.
  destruct (i <? 4096) eqn:L.
  - apply nget_put_entries_in.
    + apply stream_tags_nodup; [assumption|]. lia.
    + unfold stream_from. apply in_map, nseq_In. lia.
  - rewrite nget_put_entries_other.
    + destruct (nget _ m) eqn:Q; [|reflexivity]. exfalso. apply (Ha i Hi). eapply nget_In_nkeys; eassumption.
    + unfold stream_from. rewrite map_map, in_map_iff. intros (j & Hj & Hin). apply nseq_In in Hin.
      apply Hd in Hj; lia.
Qed.

(** ** No tag twice *)

Lemma sess_decrypt_live c remote now np g s tag m g' s' x :
  sess_decrypt c remote now np g s tag m = (g', s', Ok x) -> In tag (live_tags s).
Proof.
  unfold sess_decrypt, live_tags. destruct (nget tag (se_entries s)) eqn:E.
  - intros _. apply in_app_iff. left. eapply nget_In_nkeys; eassumption.
  - unfold nsr_decrypt. destruct (se_nsr s) as [|created entries sessions]; [discriminate|].
    destruct (nget tag entries) as [[ix e]|] eqn:En; [|discriminate].
    intros _. apply in_app_iff. right. eapply nget_In_nkeys; eassumption.
Qed.

Lemma handle_block_nsr c remote now p g s k :
  se_nsr (snd (fst (handle_block c remote now p g s k))) = se_nsr s.
Proof.
  unfold handle_block.
  repeat match goal with |- context [match ?x with _ => _ end] => destruct x end; reflexivity.
Qed.
Lemma handle_blocks_nsr c remote now np : forall l i g s,
  se_nsr (snd (fst (handle_blocks c remote now np i g s l))) = se_nsr s.
Proof.
  induction l as [|b l IH]; intros i g s; cbn [handle_blocks]; [reflexivity|].
  destruct b; try apply IH.
  pose proof (handle_block_nsr c remote now (np i) g s k) as H.
  destruct (handle_block c remote now (np i) g s k) as [[g' s'] [a| |]]; cbn [fst snd] in *; try assumption.
  now rewrite IH.
Qed.

Definition nsr_keys_of (n : nsr_ctx) : list N := match n with NActive _ e _ => nkeys e | NInactive => [] end.

(** What decryption does to the reply tags: nothing, if the tag is an ordinary one; the tag is
    gone otherwise. *)
Lemma sess_decrypt_nsr c remote now np g s tag m g' s' r :
  sess_decrypt c remote now np g s tag m = (g', s', r) ->
  (nget tag (se_entries s) <> None /\ se_nsr s' = se_nsr s) \/
  (nget tag (se_entries s) = None /\ se_entries s' = se_entries s /\
   (r = Err EInvalidState /\ se_nsr s' = se_nsr s \/
    (forall t, In t (nsr_keys_of (se_nsr s')) -> In t (nsr_keys_of (se_nsr s)) /\ t <> tag))).
Proof.
  unfold sess_decrypt. destruct (nget tag (se_entries s)) as [e|] eqn:E; intro H.
  - left. split; [congruence|].
    assert (se_nsr (snd (refill c remote g s (ndel tag (se_entries s)))) = se_nsr s) as Hr.
    { unfold refill. now destruct (next_entry c (se_recv s)) as [t [e1|]]. }
    destruct (refill c remote g s (ndel tag (se_entries s))) as [g1 s1]. cbn [snd] in Hr.
    destruct (open_es c e m); try (apply pair_equal_spec in H as [H _]; apply pair_equal_spec in H as [_ <-]; assumption).
    destruct (parse_garlic a) as [bs|]; [|apply pair_equal_spec in H as [H _]; apply pair_equal_spec in H as [_ <-]; assumption].
    pose proof (handle_blocks_nsr c remote now np bs 0 g1 s1) as Hb.
    destruct (handle_blocks c remote now np 0 g1 s1 bs) as [[g2 s2] [a2| |]]; cbn [fst snd] in Hb;
      apply pair_equal_spec in H as [H _]; apply pair_equal_spec in H as [_ <-]; congruence.
  - right. split; [reflexivity|]. unfold nsr_decrypt in H.
    destruct (se_nsr s) as [|created entries sessions] eqn:En.
    + apply pair_equal_spec in H as [H <-]; apply pair_equal_spec in H as [_ <-]. cbn. auto.
    + destruct (nget tag entries) as [[ix e]|] eqn:Et.
      * assert (s' = mkSess (se_expiring s) (NActive created (ndel tag entries) sessions)
                           (se_pending s) (se_recv s) (se_send s) (se_entries s)) as ->.
        { destruct (nth_error sessions ix); [destruct (handle_reply _ _ _ _) as [[[? ?] ?]| |]|];
          apply pair_equal_spec in H as [H _]; apply pair_equal_spec in H as [_ <-]; reflexivity. }
        cbn [se_entries se_nsr nsr_keys_of]. split; [reflexivity|]. right. intros t Ht.
        apply In_nkeys_ndel in Ht. tauto.
      * apply pair_equal_spec in H as [H <-]; apply pair_equal_spec in H as [_ <-]. cbn. auto.
Qed.
