(** No tag decrypts twice; a rejected message only costs its own tag. *)
From Coq Require Import List NArith Bool Arith Lia.
From Coq Require Import ZifyBool ZifyNat ZifyN.
From Verif Require Import Bytes ListUtil NMap GarlicModel RatchetModel RatchetSpec RatchetProofs RatchetProofs2
  RatchetProofs3.
Import ListNotations.
Open Scope N_scope.

Lemma nodup_app_l (a b : list N) : NoDup (a ++ b) -> NoDup a.
Proof.
  induction a as [|x a IH]; cbn; intro H; constructor; inversion H; subst; auto.
  intro Q. apply H2. apply in_app_iff. now left.
Qed.
Lemma nodup_app_sep (a b : list N) : NoDup (a ++ b) -> forall x, In x a -> In x b -> False.
Proof.
  induction a as [|y a IH]; cbn; intros H x Ha Hb; [tauto|]. inversion H; subst.
  destruct Ha as [->|Ha]; [|now apply (IH H3 x)]. apply H2. apply in_app_iff. now right.
Qed.

Lemma same_entry_eq a b : same_entry a b = true -> a = b.
Proof.
  unfold same_entry. destruct a as [k g i s], b as [k' g' i' s']. cbn. intro H.
  repeat (apply andb_prop in H as [H ?]).
  repeat match goal with [ H : (_ =? _) = true |- _ ] => apply N.eqb_eq in H end.
  match goal with [ H : beq _ _ = true |- _ ] => apply beq_eq in H end. now subst.
Qed.

Lemma nget_In {A} t (m : nmap A) x : nget t m = Some x -> In (t, x) m.
Proof.
  induction m as [|[k v] m IH]; cbn; [discriminate|].
  destruct (t =? k) eqn:E; [|intro H; right; now apply IH].
  intro H. injection H as ->. left. f_equal. lia.
Qed.

Lemma appeared_split before after t :
  In t (nkeys after) -> In t (appeared before after) \/ In t (nkeys before).
Proof.
  unfold appeared. intro H. apply in_map_iff in H as (x & <- & Hx).
  destruct (nget (fst x) before) as [e|] eqn:E.
  - right. now apply nget_In_nkeys in E.
  - left. apply in_map, filter_In. now rewrite E.
Qed.

Lemma not_appeared before after t e :
  nget t after = Some e -> ~ In t (appeared before after) -> nget t before = Some e.
Proof.
  intros H Hn. apply nget_In in H.
  destruct (nget t before) as [e'|] eqn:E.
  - destruct (same_entry e' e) eqn:S1; [now apply same_entry_eq in S1 as ->|].
    exfalso. apply Hn. unfold appeared. apply in_map_iff. exists (t, e). split; [reflexivity|].
    apply filter_In. split; [assumption|]. cbn [fst snd]. now rewrite E, S1.
  - exfalso. apply Hn. unfold appeared. apply in_map_iff. exists (t, e). split; [reflexivity|].
    apply filter_In. split; [assumption|]. cbn [fst]. now rewrite E.
Qed.

Lemma del_tags_keys {A} (l : list N) : forall (m : nmap A) t, In t (nkeys (del_tags m l)) -> In t (nkeys m).
Proof.
  unfold del_tags. induction l as [|x l IH]; intros m t H; cbn [fold_left] in H; [assumption|].
  apply IH in H. apply In_nkeys_ndel in H. tauto.
Qed.
Lemma expire_keys now : forall l g m t,
  In t (nkeys (snd (expire now l g m))) -> In t (nkeys m).
Proof.
  induction l as [|[c l'] l IH]; intros g m t; cbn [expire]; [tauto|].
  destruct (_ <? _); [tauto|]. intro H. apply IH in H. now apply del_tags_keys in H.
Qed.

Record uinv (be bn : list N) (r : srun) : Prop := {
  u_nodup : NoDup (sr_used r);
  u_used : forall t, In t (sr_used r) -> In t (be ++ bn) \/ In t (sr_new r);
  u_ent : forall t, In t (nkeys (se_entries (sr_sess r))) -> In t be \/ In t (sr_new r);
  u_nsr : forall t, In t (nsr_keys_of (se_nsr (sr_sess r))) -> In t bn;
  u_free1 : forall t, In t (sr_used r) -> ~ In t (nkeys (se_entries (sr_sess r)));
  u_free2 : forall t, In t (sr_used r) -> ~ In t (nsr_keys_of (se_nsr (sr_sess r)))
}.

Lemma live_tags_eq s : live_tags s = nkeys (se_entries s) ++ nsr_keys_of (se_nsr s).
Proof. reflexivity. Qed.

Lemma nodup_snoc (l : list N) x : NoDup l -> ~ In x l -> NoDup (l ++ [x]).
Proof.
  induction l as [|y l IH]; intros H Hx; cbn; [repeat constructor; auto|].
  inversion H; subst. constructor.
  - rewrite in_app_iff. cbn in *. intuition.
  - apply IH; auto. cbn in Hx. tauto.
Qed.

Lemma uinv_step c remote be bn r o :
  uinv be bn r -> NoDup ((be ++ bn) ++ sr_new (sstep c remote r o)) -> uinv be bn (sstep c remote r o).
Proof.
  intros H Hnd. destruct o as [now tag m np|bs p|now]; cbn [sstep] in *.
  - destruct (sess_decrypt c remote now np (ndel tag (sr_tags r)) (sr_sess r) tag m) as [[g s] x] eqn:E.
    cbn [sr_new] in Hnd.
    set (app := appeared (ndel tag (se_entries (sr_sess r))) (se_entries s)) in *.
    assert (forall t, In t app -> ~ In t (be ++ bn) /\ ~ In t (sr_new r)) as Happ.
    { intros t Ht. rewrite app_assoc in Hnd. split; intro Q;
        apply (nodup_app_sep _ _ Hnd t); auto; apply in_app_iff; tauto. }
    assert (forall t, In t be -> In t bn -> False) as Hsep.
    { apply nodup_app_l in Hnd. intros t. apply (nodup_app_sep _ _ Hnd). }
    assert (forall t, In t bn -> ~ In t (sr_new r)) as Hsep2.
    { rewrite app_assoc in Hnd. apply nodup_app_l in Hnd. intros t Ht Ht'.
      apply (nodup_app_sep _ _ Hnd t); auto. apply in_app_iff. tauto. }
    assert (forall t, In t (nkeys (se_entries s)) ->
            In t app \/ (t <> tag /\ In t (nkeys (se_entries (sr_sess r))))) as Hent.
    { intros t Ht. destruct (appeared_split (ndel tag (se_entries (sr_sess r))) _ _ Ht) as [Q|Q]; [now left|].
      apply In_nkeys_ndel in Q. tauto. }
    assert (forall t, In t (nsr_keys_of (se_nsr s)) -> In t (nsr_keys_of (se_nsr (sr_sess r)))) as Hnsr.
    { intros t Ht. destruct (sess_decrypt_nsr _ _ _ _ _ _ _ _ _ _ _ E) as [[_ Q]|(_ & _ & [[_ Q]|Q])].
      - now rewrite Q in Ht.
      - now rewrite Q in Ht.
      - now apply Q in Ht. }
    assert (forall y, x = Ok y -> In tag (live_tags (sr_sess r)) /\ ~ In tag (nsr_keys_of (se_nsr s))) as Hok.
    { intros y ->. pose proof (sess_decrypt_live _ _ _ _ _ _ _ _ _ _ _ E) as Hl. split; [assumption|].
      intro Q. destruct (sess_decrypt_nsr _ _ _ _ _ _ _ _ _ _ _ E) as [[Q1 Q2]|(_ & _ & [[Q1 _]|Q1])].
      - rewrite Q2 in Q. apply (u_nsr _ _ _ H) in Q.
        destruct (nget tag (se_entries (sr_sess r))) eqn:En; [|congruence].
        apply nget_In_nkeys, (u_ent _ _ _ H) in En as [En|En].
        + now apply (Hsep tag).
        + now apply (Hsep2 tag).
      - discriminate.
      - apply Q1 in Q. tauto. }
    assert (uinv be bn (mkSrun g s (sr_new r ++ app) (sr_used r))) as H1.
    { destruct H. constructor; cbn [sr_used sr_sess sr_new]; auto.
      - intros t Ht. apply u_used0 in Ht as [Ht|Ht]; [tauto|]. right. apply in_app_iff. tauto.
      - intros t Ht. apply Hent in Ht as [Ht|[_ Ht]].
        + right. apply in_app_iff. tauto.
        + apply u_ent0 in Ht as [Ht|Ht]; [tauto|]. right. apply in_app_iff. tauto.
      - intros t Ht Ht'. apply Hent in Ht' as [Ht'|[_ Ht']].
        + apply Happ in Ht' as [A B]. apply u_used0 in Ht. tauto.
        + now apply (u_free3 t).
      - intros t Ht Ht'. apply Hnsr in Ht'. now apply (u_free4 t). }
    destruct x as [y| |]; try exact H1. destruct (Hok y eq_refl) as [Hl Hn].
    rewrite live_tags_eq in Hl. apply in_app_iff in Hl.
    assert (~ In tag (sr_used r)) as Hfresh.
    { intro Q. destruct Hl as [Hl|Hl]; [now apply (u_free1 _ _ _ H tag)|now apply (u_free2 _ _ _ H tag)]. }
    assert (In tag (be ++ bn) \/ In tag (sr_new r)) as Htag.
    { destruct Hl as [Hl|Hl].
      - apply (u_ent _ _ _ H) in Hl. rewrite in_app_iff. tauto.
      - apply (u_nsr _ _ _ H) in Hl. rewrite in_app_iff. tauto. }
    destruct H1. constructor; cbn [sr_used sr_sess sr_new] in *; auto.
    + now apply nodup_snoc.
    + intros t Ht. apply in_app_iff in Ht as [Ht|[<-|[]]]; [auto|].
      destruct Htag; [tauto|]. right. apply in_app_iff. tauto.
    + intros t Ht. apply in_app_iff in Ht as [Ht|[<-|[]]]; [auto|].
      intro Q. apply Hent in Q as [Q|[Q _]]; [|congruence]. apply Happ in Q. tauto.
    + intros t Ht. apply in_app_iff in Ht as [Ht|[<-|[]]]; auto.
  - assert (se_entries (fst (sess_encrypt c (sr_sess r) bs p)) = se_entries (sr_sess r) /\
            se_nsr (fst (sess_encrypt c (sr_sess r) bs p)) = se_nsr (sr_sess r)) as [E1 E2].
    { unfold sess_encrypt.
      repeat match goal with |- context [match ?x with _ => _ end] => destruct x end; now split. }
    destruct (sess_encrypt c (sr_sess r) bs p) as [s x]. cbn [fst] in *.
    destruct H. constructor; cbn [sr_used sr_sess sr_new]; rewrite ?E1, ?E2; auto.
  - unfold sess_maintain in *.
    set (z := match se_nsr (sr_sess r) with
              | NInactive => (NInactive, sr_tags r)
              | NActive created entries _ =>
                  if now - created <? NSR_MAX_AGE then (se_nsr (sr_sess r), sr_tags r)
                  else (NInactive, del_tags (sr_tags r) (nkeys entries)) end) in *.
    assert (forall t, In t (nsr_keys_of (fst z)) -> In t (nsr_keys_of (se_nsr (sr_sess r)))) as Hz.
    { unfold z. destruct (se_nsr (sr_sess r)); cbn; [tauto|]. destruct (_ <? _); cbn; tauto. }
    destruct z as [n g]. cbn [fst] in Hz.
    pose proof (expire_keys now (se_expiring (sr_sess r)) g (se_entries (sr_sess r))) as He.
    destruct (expire now (se_expiring (sr_sess r)) g (se_entries (sr_sess r))) as [[x g'] entries]. cbn [snd] in He.
    destruct H. constructor; cbn [sr_used sr_sess sr_new se_entries se_nsr]; auto.
    + intros t Ht Q. apply He in Q. now apply (u_free3 t).
    + intros t Ht Q. apply Hz in Q. now apply (u_free4 t).
Qed.

Lemma sstep_new_prefix c remote r o : exists l, sr_new (sstep c remote r o) = sr_new r ++ l.
Proof.
  destruct o as [now tag m np|bs p|now]; cbn [sstep].
  - destruct (sess_decrypt _ _ _ _ _ _ _ _) as [[g s] x]. now eexists.
  - destruct (sess_encrypt _ _ _ _). exists []. cbn. now rewrite app_nil_r.
  - destruct (sess_maintain _ _ _). exists []. cbn. now rewrite app_nil_r.
Qed.

Lemma used_once c remote g s0 ops :
  let r := fold_left (sstep c remote) ops (mkSrun g s0 [] []) in
  NoDup (live_tags s0 ++ sr_new r) -> NoDup (sr_used r).
Proof.
  intros r. rewrite live_tags_eq. intro H.
  apply (u_nodup (nkeys (se_entries s0)) (nsr_keys_of (se_nsr s0))).
  subst r. revert H. induction ops as [|o ops IH] using rev_ind; intro H.
  - constructor; cbn [fold_left sr_used sr_sess sr_new In]; auto; try tauto. constructor.
  - rewrite fold_left_app in *. cbn [fold_left] in *.
    set (r := fold_left (sstep c remote) ops (mkSrun g s0 [] [])) in *.
    apply uinv_step; [|assumption]. apply IH.
    destruct (sstep_new_prefix c remote r o) as [l El]. rewrite El, app_assoc in H.
    now apply nodup_app_l in H.
Qed.

(** ** Rejected messages *)

Lemma nget_has {A} t (m : nmap A) : In t (nkeys m) <-> nget t m <> None.
Proof.
  split.
  - intros H Q. apply nget_Some_nkeys in H as [x H]. congruence.
  - destruct (nget t m) eqn:E; [|congruence]. intros _. now apply nget_In_nkeys in E.
Qed.

Lemma put_entries_keeps m l t : nget t m <> None -> nget t (put_entries m l) <> None.
Proof.
  unfold put_entries. revert m. induction l as [|e l IH]; intros m H; cbn [fold_left]; [assumption|].
  apply IH. destruct (N.eq_dec t (e_tag e)) as [->|Hne].
  - now rewrite nget_nput_same.
  - now rewrite nget_nput_other.
Qed.

Lemma handle_block_keeps c remote now p g s k t :
  nget t (se_entries s) <> None ->
  nget t (se_entries (snd (fst (handle_block c remote now p g s k)))) <> None.
Proof.
  intro H. unfold handle_block.
  repeat match goal with |- context [match ?x with _ => _ end] => destruct x end;
    cbn [fst snd se_entries]; auto using put_entries_keeps.
Qed.
Lemma handle_blocks_keeps c remote now np t : forall l i g s,
  nget t (se_entries s) <> None ->
  nget t (se_entries (snd (fst (handle_blocks c remote now np i g s l)))) <> None.
Proof.
  induction l as [|b l IH]; intros i g s H; cbn [handle_blocks]; [assumption|].
  destruct b; try (now apply IH).
  pose proof (handle_block_keeps c remote now (np i) g s k t H) as Q.
  destruct (handle_block c remote now (np i) g s k) as [[g' s'] [a| |]]; cbn [fst snd] in *; try assumption.
  now apply IH.
Qed.

Lemma sess_decrypt_keeps c remote now np g s tag m t :
  t <> tag -> nget t (se_entries s) <> None ->
  nget t (se_entries (snd (fst (sess_decrypt c remote now np g s tag m)))) <> None.
Proof.
  intros Hne H. unfold sess_decrypt. destruct (nget tag (se_entries s)) as [e|] eqn:E.
  - assert (nget t (se_entries (snd (refill c remote g s (ndel tag (se_entries s))))) <> None) as Hr.
    { unfold refill. destruct (next_entry c (se_recv s)) as [ts [e1|]]; cbn [snd se_entries].
      - destruct (N.eq_dec t (e_tag e1)) as [->|Q]; [now rewrite nget_nput_same|].
        rewrite nget_nput_other by assumption. now rewrite nget_ndel_other.
      - now rewrite nget_ndel_other. }
    destruct (refill c remote g s (ndel tag (se_entries s))) as [g1 s1]. cbn [snd] in Hr.
    destruct (open_es c e m); cbn [fst snd]; auto.
    destruct (parse_garlic a) as [bs|]; cbn [fst snd]; auto.
    pose proof (handle_blocks_keeps c remote now np t bs 0 g1 s1 Hr) as Hb.
    destruct (handle_blocks c remote now np 0 g1 s1 bs) as [[g2 s2] [a2| |]]; cbn [fst snd] in *; auto.
  - destruct (nsr_decrypt _ _ _ _); cbn [fst snd se_entries]. assumption.
Qed.

(** Whatever is done to a session, short of using the tag itself or expiring old tags, an
    entry stays what it is. *)
Definition leaves (t : N) (o : sop) : Prop :=
  match o with SDecrypt _ tag _ _ => tag <> t | SEncrypt _ _ => True | SMaintain _ => False end.

Lemma entry_stays c remote t e : forall ops g s0,
  nget t (se_entries s0) = Some e -> Forall (leaves t) ops ->
  let r := fold_left (sstep c remote) ops (mkSrun g s0 [] []) in
  ~ In t (sr_new r) -> nget t (se_entries (sr_sess r)) = Some e.
Proof.
  intros ops g s0 H0 Hf r. subst r. induction ops as [|o ops IH] using rev_ind; intro Hn; [assumption|].
  apply Forall_app in Hf as [Hf Ho]. apply Forall_inv in Ho. specialize (IH Hf).
  rewrite fold_left_app in *. cbn [fold_left] in *.
  set (r := fold_left (sstep c remote) ops (mkSrun g s0 [] [])) in *.
  assert (nget t (se_entries (sr_sess r)) = Some e) as Hr.
  { apply IH. intro Q. apply Hn. destruct (sstep_new_prefix c remote r o) as [l ->].
    apply in_app_iff. now left. }
  destruct o as [now tag m np|bs p|now]; cbn [sstep leaves] in *; [| |tauto].
  - assert (t <> tag) as Hne by congruence.
    pose proof (sess_decrypt_keeps c remote now np (ndel tag (sr_tags r)) (sr_sess r) tag m t Hne) as Hk.
    destruct (sess_decrypt c remote now np (ndel tag (sr_tags r)) (sr_sess r) tag m) as [[g1 s] x].
    cbn [fst snd sr_sess sr_new] in *.
    destruct (nget t (se_entries s)) as [e'|] eqn:Ee; [|exfalso; apply Hk; congruence].
    apply not_appeared with (before := ndel tag (se_entries (sr_sess r))) in Ee.
    + rewrite nget_ndel_other in Ee by assumption. congruence.
    + intro Q. apply Hn. apply in_app_iff. now right.
  - assert (se_entries (fst (sess_encrypt c (sr_sess r) bs p)) = se_entries (sr_sess r)) as E1.
    { unfold sess_encrypt.
      repeat match goal with |- context [match ?x with _ => _ end] => destruct x end; reflexivity. }
    destruct (sess_encrypt c (sr_sess r) bs p) as [s x]. cbn [fst sr_sess] in *. now rewrite E1.
Qed.

Lemma decrypts_entry c remote now np g s t e payload :
  rcrypt_ok c -> nget t (se_entries s) = Some e -> e_tag e = t -> plain payload ->
  snd (sess_decrypt c remote now np g s t (es_wire c e payload)) = Ok (e_set e, e_index e, payload).
Proof.
  intros Hc H He (bs & Hbs & Hp). unfold sess_decrypt. rewrite H.
  destruct (refill c remote g s (ndel t (se_entries s))) as [g1 s1].
  rewrite open_es_wire, Hbs, handle_blocks_plain by assumption. reflexivity.
Qed.

(** ** The manager *)

(** Two states of a session that answer alike: the sets may have handed out more or fewer tags. *)
Definition alike (s s' : session) : Prop :=
  se_send s = se_send s' /\ ts_state (se_recv s) = ts_state (se_recv s').

Lemma hnk_alike c t t' k p :
  ts_state t = ts_state t' ->
  snd (handle_next_key c t k p) = snd (handle_next_key c t' k p) /\
  ts_state (fst (handle_next_key c t k p)) = ts_state (fst (handle_next_key c t' k p)).
Proof.
  destruct t as [x st i j], t' as [x' st' i' j']. cbn [ts_state]. intros <-. unfold handle_next_key. cbn [ts_state].
  repeat match goal with |- context [match ?x with _ => _ end] => destruct x end; cbn; auto.
Qed.

Lemma can_ratchet_index c t k p :
  can_ratchet t k = true -> ts_index (fst (handle_next_key c t k p)) = 0.
Proof.
  unfold can_ratchet, handle_next_key. intro H.
  destruct (ts_state t) as [|s r a|s r a b|s r a b|], k as [id [key|] [|]|id [key|]];
    try discriminate; try reflexivity.
  - now rewrite H.
  - apply andb_prop in H as [H1 H2]. rewrite H1. now replace (MAX_KEY_ID <? id) with false by lia.
  - apply andb_prop in H as [H1 H2]. rewrite H1. now replace (MAX_KEY_ID <? id) with false by lia.
Qed.

Lemma gen_index0 c t : ts_index t = 0 -> exists t' l, gen c (N.to_nat NUM_TAGS) t = Some (t', l) /\ ts_state t' = ts_state t.
Proof.
  intro H. assert (issued c (ts_ctx t) t) as Hi by (split; rewrite H; [reflexivity|lia]).
  assert (N.of_nat (N.to_nat NUM_TAGS) = 4096) as E by reflexivity.
  destruct (gen_works c (ts_ctx t) (N.to_nat NUM_TAGS) t Hi) as [[t' l] Hg]; [rewrite E; lia|].
  exists t', l. split; [assumption|]. now apply (gen_spec c (ts_ctx t)) in Hg as (_ & _ & _ & _ & ?).
Qed.

Lemma gen_opt_state c n : forall t, ts_state (fst (gen_opt c n t)) = ts_state t.
Proof.
  induction n as [|n IH]; intro t; cbn [gen_opt]; [reflexivity|].
  unfold next_entry. destruct (ts_index t =? 65535); [apply IH|].
  destruct (ratchet_once c (ts_ctx t)) as [k [key tag]].
  specialize (IH (mkTS k (ts_state t) (ts_index t + 1) (ts_id t))). now destruct (gen_opt _ _ _).
Qed.

Lemma can_ratchet_state t t' k : ts_state t = ts_state t' -> can_ratchet t k = can_ratchet t' k.
Proof. intro H. unfold can_ratchet. now rewrite H. Qed.

Lemma handle_block_alike c remote now p g g' s s' k :
  alike s s' ->
  snd (handle_block c remote now p g s k) = snd (handle_block c remote now p g' s' k) /\
  alike (snd (fst (handle_block c remote now p g s k))) (snd (fst (handle_block c remote now p g' s' k))).
Proof.
  intros [H1 H2]. destruct k as [id key q|id key]; unfold handle_block; set (k := _ id key) in *;
    try set (kk := k q) in *.
  - rewrite (can_ratchet_state _ _ kk H2). destruct (can_ratchet (se_recv s') kk) eqn:R.
    + pose proof (gen_opt_state c (N.to_nat NUM_EXTRA_TAGS) (se_recv s)) as G1.
      pose proof (gen_opt_state c (N.to_nat NUM_EXTRA_TAGS) (se_recv s')) as G2.
      destruct (gen_opt c (N.to_nat NUM_EXTRA_TAGS) (se_recv s)) as [o l].
      destruct (gen_opt c (N.to_nat NUM_EXTRA_TAGS) (se_recv s')) as [o' l'].
      cbn [fst] in G1, G2.
      assert (ts_state o = ts_state o') as Ho by congruence.
      assert (can_ratchet o kk = true) as R1 by (rewrite <- R; apply can_ratchet_state; congruence).
      assert (can_ratchet o' kk = true) as R2 by (rewrite <- R; apply can_ratchet_state; congruence).
      destruct (hnk_alike c o o' kk p Ho) as [A1 A2].
      pose proof (can_ratchet_index c o kk p R1) as I1. pose proof (can_ratchet_index c o' kk p R2) as I2.
      destruct (handle_next_key c o kk p) as [t r], (handle_next_key c o' kk p) as [t' r'].
      cbn [fst snd] in *. subst r'.
      destruct (gen_index0 c t I1) as (u & x & E1 & S1), (gen_index0 c t' I2) as (u' & x' & E2 & S2).
      destruct r as [reply|e|]; rewrite ?E1, ?E2; cbn [fst snd se_send se_recv]; unfold alike;
        cbn [se_send se_recv]; repeat split; congruence.
    + destruct (hnk_alike c _ _ kk p H2) as [A1 A2].
      destruct (handle_next_key c (se_recv s) kk p) as [t r], (handle_next_key c (se_recv s') kk p) as [t' r'].
      cbn [fst snd] in *. subst r'. destruct r; cbn [fst snd]; unfold alike; cbn; auto.
  - rewrite <- H1. destruct (handle_next_key c (se_send s) k p) as [t [r|e|]];
      cbn [fst snd]; unfold alike; cbn; auto.
Qed.

Lemma handle_blocks_alike c remote now np : forall l i g g' s s',
  alike s s' ->
  snd (handle_blocks c remote now np i g s l) = snd (handle_blocks c remote now np i g' s' l).
Proof.
  induction l as [|b l IH]; intros i g g' s s' H; cbn [handle_blocks]; [reflexivity|].
  destruct b; try (now apply IH).
  destruct (handle_block_alike c remote now (np i) g g' s s' k H) as [A B].
  destruct (handle_block c remote now (np i) g s k) as [[g1 s1] r],
           (handle_block c remote now (np i) g' s' k) as [[g1' s1'] r']. cbn [fst snd] in *. subst r'.
  destruct r; cbn [snd]; [now apply IH|reflexivity|reflexivity].
Qed.

Lemma handle_block_err c remote now p g s k e :
  snd (handle_block c remote now p g s k) = Err e -> e = EInvalidState \/ e = ETerminated.
Proof.
  assert (forall t k p e, snd (handle_next_key c t k p) = Err e -> e = EInvalidState \/ e = ETerminated) as Hh.
  { intros t k0 p0 e0. unfold handle_next_key.
    repeat match goal with |- context [match ?x with _ => _ end] => destruct x end; cbn; intro H;
      try discriminate; injection H as <-; auto. }
  intro H. unfold handle_block in H.
  destruct k as [id key q|id key].
  - destruct (can_ratchet (se_recv s) (ForwardKey id key q)).
    + destruct (gen_opt c (N.to_nat NUM_EXTRA_TAGS) (se_recv s)) as [o l].
      pose proof (Hh o (ForwardKey id key q) p) as Q.
      destruct (handle_next_key c o (ForwardKey id key q) p) as [t [r|x|]]; cbn [snd] in *.
      * destruct (gen c (N.to_nat NUM_TAGS) t) as [[u x]|]; discriminate.
      * apply Q; congruence.
      * discriminate.
    + pose proof (Hh (se_recv s) (ForwardKey id key q) p) as Q.
      destruct (handle_next_key c (se_recv s) (ForwardKey id key q) p) as [t [r|x|]]; cbn [snd] in *;
        try discriminate. apply Q; congruence.
  - pose proof (Hh (se_send s) (ReverseKey id key) p) as Q.
    destruct (handle_next_key c (se_send s) (ReverseKey id key) p) as [t [r|x|]]; cbn [snd] in *;
      try discriminate. apply Q; congruence.
Qed.
Lemma handle_blocks_err c remote now np e : forall l i g s,
  snd (handle_blocks c remote now np i g s l) = Err e -> e = EInvalidState \/ e = ETerminated.
Proof.
  induction l as [|b l IH]; intros i g s; cbn [handle_blocks]; [discriminate|].
  destruct b; try apply IH.
  pose proof (handle_block_err c remote now (np i) g s k e) as Q.
  destruct (handle_block c remote now (np i) g s k) as [[g1 s1] [a|x|]]; cbn [snd] in *; auto; try apply IH.
Qed.

(** A ciphertext that is not authentic *)
Lemma sess_decrypt_crypto c remote now np g s tag m g' s' :
  sess_decrypt c remote now np g s tag m = (g', s', Err ECrypto) ->
  (g', s') = refill c remote g s (ndel tag (se_entries s)).
Proof.
  unfold sess_decrypt. destruct (nget tag (se_entries s)) as [e|].
  - destruct (refill c remote g s (ndel tag (se_entries s))) as [g1 s1].
    destruct (open_es c e m).
    + destruct (parse_garlic a); [|discriminate].
      pose proof (handle_blocks_err c remote now np ECrypto l 0 g1 s1) as Q.
      destruct (handle_blocks c remote now np 0 g1 s1 l) as [[g2 s2] [x|x|]]; try discriminate.
      intro H. apply pair_equal_spec in H as [_ H]. injection H as ->. destruct (Q eq_refl); discriminate.
    + intro H. apply pair_equal_spec in H as [H _]. now rewrite H.
    + discriminate.
  - unfold nsr_decrypt.
    destruct (se_nsr s) as [|created entries sessions]; [discriminate|].
    destruct (nget tag entries) as [[ix e]|]; [|discriminate].
    destruct (nth_error sessions ix) as [o|]; [|discriminate].
    destruct (handle_reply c o e m) as [[[? ?] ?]| |]; discriminate.
Qed.

Lemma sess_decrypt_alike c remote now np g g' s s' tag m :
  nget tag (se_entries s) <> None -> nget tag (se_entries s') = nget tag (se_entries s) -> alike s s' ->
  snd (sess_decrypt c remote now np g s tag m) = snd (sess_decrypt c remote now np g' s' tag m).
Proof.
  intros H0 H1 H2. unfold sess_decrypt. rewrite H1. destruct (nget tag (se_entries s)) as [e|]; [|congruence].
  assert (alike (snd (refill c remote g s (ndel tag (se_entries s))))
                (snd (refill c remote g' s' (ndel tag (se_entries s'))))) as Hr.
  { destruct H2 as [A B]. unfold refill, next_entry, alike.
    destruct (ts_index (se_recv s) =? 65535), (ts_index (se_recv s') =? 65535);
      try destruct (ratchet_once c (ts_ctx (se_recv s))) as [k [key tg]];
      try destruct (ratchet_once c (ts_ctx (se_recv s'))) as [k' [key' tg']]; cbn; auto. }
  destruct (refill c remote g s (ndel tag (se_entries s))) as [g1 s1],
           (refill c remote g' s' (ndel tag (se_entries s'))) as [g1' s1']. cbn [snd] in Hr.
  destruct (open_es c e m); [|reflexivity|reflexivity].
  destruct (parse_garlic a); [|reflexivity].
  pose proof (handle_blocks_alike c remote now np l 0 g1 g1' s1 s1' Hr) as Q.
  destruct (handle_blocks c remote now np 0 g1 s1 l) as [[g2 s2] r],
           (handle_blocks c remote now np 0 g1' s1' l) as [[g2' s2'] r']. cbn [snd] in Q. subst r'.
  now destruct r.
Qed.

Lemma snd3 {A B C} (x : A * B * C) a b d : x = (a, b, d) -> snd x = d.
Proof. now intros ->. Qed.

(** What the manager returns for a message under a tag of an active session depends on nothing
    but the entry, the keys the session waits for, and the clock. *)
Lemma mgr_decrypt_alike c lo now np m m' v tag dest a a' :
  garlic_tag v = Some tag ->
  nget tag (m_tags m) = Some dest -> nget tag (m_tags m') = Some dest ->
  nget dest (m_active m) = Some a -> nget dest (m_active m') = Some a' ->
  nget tag (se_entries (a_sess a)) <> None ->
  nget tag (se_entries (a_sess a')) = nget tag (se_entries (a_sess a)) ->
  alike (a_sess a) (a_sess a') ->
  snd (mgr_decrypt c lo now np m v) = snd (mgr_decrypt c lo now np m' v).
Proof.
  intros Ht H1 H1' H2 H2' H3 H4 H5. unfold mgr_decrypt. rewrite Ht, H1, H1', H2, H2'.
  pose proof (sess_decrypt_alike c dest now np (ndel tag (m_tags m)) (ndel tag (m_tags m')) _ _ tag v H3 H4 H5) as Q.
  destruct (sess_decrypt c dest now np (ndel tag (m_tags m)) (a_sess a) tag v) as [[g s] r],
           (sess_decrypt c dest now np (ndel tag (m_tags m')) (a_sess a') tag v) as [[g' s'] r'].
  cbn [snd] in Q. subst r'. destruct r as [[[set index] payload]|e|]; [|destruct e; reflexivity|reflexivity].
  destruct (parse_garlic payload) as [bs|]; [|reflexivity].
  assert (forall act act', snd (take_cloves dest set index act bs) = snd (take_cloves dest set index act' bs)) as Hc.
  { induction bs as [|b bs IH]; intros act act'; cbn [take_cloves]; [reflexivity|].
    destruct b; try apply IH.
    specialize (IH act act').
    destruct (take_cloves dest set index act bs), (take_cloves dest set index act' bs). cbn in *. now rewrite IH. }
  specialize (Hc (m_active (mgr_with m
     (nput dest (mkActive (a_in_acks a) now (a_sent a) (a_lease a) (a_out_acks a) s) (m_active m)) (m_pending m) g))
     (m_active (mgr_with m'
     (nput dest (mkActive (a_in_acks a') now (a_sent a') (a_lease a') (a_out_acks a') s') (m_active m')) (m_pending m') g'))).
  destruct (take_cloves _ _ _ _ bs) as [x1 l1], (take_cloves _ _ _ _ bs) as [x2 l2].
  cbn [snd] in *. now rewrite Hc.
Qed.

(** A message whose ciphertext is not authentic *)
Lemma bad_message_local c lo now np m b m' v tb tag dest a :
  mgr_decrypt c lo now np m b = (m', Err ECrypto) ->
  garlic_tag b = Some tb -> garlic_tag v = Some tag -> tag <> tb ->
  nget tag (m_tags m) = Some dest -> nget dest (m_active m) = Some a ->
  nget tag (se_entries (a_sess a)) <> None ->
  (forall d x e, nget tb (m_tags m) = Some d -> nget d (m_active m) = Some x ->
     snd (next_entry c (se_recv (a_sess x))) = Some e -> e_tag e <> tag) ->
  forall lo' now' np', snd (mgr_decrypt c lo' now' np' m v) = snd (mgr_decrypt c lo' now' np' m' v) /\
  exists a', nget tag (m_tags m') = Some dest /\ nget dest (m_active m') = Some a' /\
             nget tag (se_entries (a_sess a')) = nget tag (se_entries (a_sess a)).
Proof.
  intros E Hb Hv Hne H1 H2 H3 Hcol lo' now' np'.
  assert (exists a', nget tag (m_tags m') = Some dest /\ nget dest (m_active m') = Some a' /\
             nget tag (se_entries (a_sess a')) = nget tag (se_entries (a_sess a)) /\
             alike (a_sess a) (a_sess a')) as (a' & Q1 & Q2 & Q3 & Q4).
  { unfold mgr_decrypt in E. rewrite Hb in E.
    assert (alike (a_sess a) (a_sess a)) as Hrefl by (split; reflexivity).
    destruct (nget tb (m_tags m)) as [d|] eqn:Etb.
    - destruct (nget d (m_active m)) as [x|] eqn:Ex.
      + destruct (sess_decrypt c d now np (ndel tb (m_tags m)) (a_sess x) tb b) as [[g s] r] eqn:Es.
        destruct r as [[[set index] payload]|e|].
        * destruct (parse_garlic payload); [destruct (take_cloves _ _ _ _ _)|]; discriminate.
        * assert (e = ECrypto) as ->.
          { destruct e; apply pair_equal_spec in E as [_ E]; congruence. }
          apply pair_equal_spec in E as [<- _].
          apply sess_decrypt_crypto in Es. specialize (Hcol d x).
          unfold refill in Es.
          destruct (next_entry c (se_recv (a_sess x))) as [t [e|]] eqn:En;
            apply pair_equal_spec in Es as [-> ->]; cbn [m_tags m_active mgr_with].
          -- specialize (Hcol e eq_refl Ex eq_refl).
             assert (ts_state t = ts_state (se_recv (a_sess x))) as Hst.
             { unfold next_entry in En. destruct (_ =? _); [discriminate|].
               destruct (ratchet_once _ _) as [k [key tg]]. apply pair_equal_spec in En as [<- _]. reflexivity. }
             destruct (N.eq_dec dest d) as [->|Hd].
             ++ rewrite H2 in Ex. injection Ex as <-. eexists.
                rewrite nget_nput_other by auto. rewrite nget_ndel_other by auto.
                rewrite nget_nput_same. split; [assumption|]. split; [reflexivity|].
                cbn [a_sess se_entries]. split.
                ** rewrite nget_nput_other by auto. now rewrite nget_ndel_other.
                ** split; cbn; [reflexivity|now rewrite Hst].
             ++ exists a. rewrite nget_nput_other by auto. rewrite nget_ndel_other by auto.
                rewrite nget_nput_other by auto. auto.
          -- assert (t = se_recv (a_sess x)) as -> by (apply next_entry_none in En; tauto).
             destruct (N.eq_dec dest d) as [->|Hd].
             ++ rewrite H2 in Ex. injection Ex as <-. eexists.
                rewrite nget_ndel_other by auto.
                rewrite nget_nput_same. split; [assumption|]. split; [reflexivity|].
                cbn [a_sess se_entries]. split; [now rewrite nget_ndel_other|]. split; reflexivity.
             ++ exists a. rewrite nget_ndel_other by auto. rewrite nget_nput_other by auto. auto.
        * apply pair_equal_spec in E as [_ E]. discriminate.
      + assert (d <> dest) as Hd by congruence.
        destruct (nget d (m_pending m)) as [p|]; [|discriminate].
        assert (forall g p' e, advance_inbound c d tb b (ndel tb (m_tags m)) p = (g, p', Err e) -> g = ndel tb (m_tags m)) as Hg.
        { intros g p' e. unfold advance_inbound.
          repeat match goal with |- context [match ?x with _ => _ end] => destruct x end;
            intro Z; try discriminate; apply pair_equal_spec in Z as [Z _];
            now apply pair_equal_spec in Z as [<- _]. }
        destruct (advance_inbound c d tb b (ndel tb (m_tags m)) p) as [[g p'] [ev|e|]].
        * destruct ev; try discriminate; destruct (parse_garlic _); try destruct (take_cloves _ _ _ _ _); discriminate.
        * rewrite (Hg g p' e eq_refl) in E. apply pair_equal_spec in E as [<- _].
          exists a. cbn [m_tags m_active mgr_with]. rewrite nget_ndel_other by auto. auto.
        * discriminate.
    - assert (m' = m) as ->.
      { destruct (create_inbound c (m_kc m) b) as [[i payload]|e|].
        - destruct (parse_garlic payload) as [bs|]; [|discriminate].
          unfold ns_remote in E. destruct (first_store bs); [|discriminate].
          destruct (lo l) as [[key id]|]; [|discriminate]. destruct (key =? id); [|discriminate].
          destruct (take_cloves _ _ _ _ _). discriminate.
        - now apply pair_equal_spec in E as [<- _].
        - discriminate. }
      exists a. auto. }
  split; [|exists a'; auto].
  now apply mgr_decrypt_alike with tag dest a a'.
Qed.
