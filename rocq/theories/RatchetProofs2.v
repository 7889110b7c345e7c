(** Both ends of one direction of a session ratchet in lockstep. *)
From Coq Require Import List NArith Bool Arith Lia String.
From Coq Require Import ZifyBool ZifyNat ZifyN.
From Verif Require Import Bytes NMap GarlicModel RatchetModel RatchetSpec RatchetProofs.
Import ListNotations.
Open Scope N_scope.

Definition installed (c : rcrypt) (root priv pub : bytes) : kctx :=
  key_context c root (hmac c (hmac c (dh c priv pub) []) (str "XDHRatchetTagSet"%string ++ [1])).

Lemma reinit_issued c t priv pub s r :
  issued c (installed c (kc_root (ts_ctx t)) priv pub) (ts_reinit c t priv pub s r).
Proof. split; cbn; [reflexivity|lia]. Qed.

(** The request for, and the answer to, the exchange that leads to the key ids [s], [r];
    [a] is the sender's private key, [b] the receiver's. *)
Definition req (c : rcrypt) (s r : N) (a : bytes) : next_key :=
  if (s =? 0) && (r =? 0) then ForwardKey 0 (Some (pubkey c a)) true
  else if s =? r then ForwardKey r None true
  else ForwardKey s (Some (pubkey c a)) false.
Definition ans (c : rcrypt) (s r : N) (b : bytes) : next_key :=
  if s =? r then ReverseKey r (Some (pubkey c b)) else ReverseKey r None.

Lemma ans_reverse c s r b : exists i o, ans c s r b = ReverseKey i o.
Proof. unfold ans. destruct (s =? r); eauto. Qed.

Definition all_at (log : list (N * next_key)) (x : N) (k : next_key) : Prop :=
  forall k', In (x, k') log -> k' = k.
Definition none_at (log : list (N * next_key)) (x : N) : Prop := forall k', ~ In (x, k') log.
Definition balanced (s r : N) : Prop := s = r \/ s = r + 1.

(** How far the two ends are: idle, asked, answered, or given up for want of key ids. *)
Inductive phase (c : rcrypt) (ctx : N -> kctx) (fwd rev : list (N * next_key)) :
  key_state -> N -> key_state -> N -> N -> Prop :=
| ph_fresh : phase c ctx fwd rev KUninit 0 KUninit 0 0
| ph_idle s r a b :
    balanced s r -> s <= MAX_KEY_ID -> r <= MAX_KEY_ID ->
    all_at fwd (1 + s + r) (req c s r a) ->
    phase c ctx fwd rev (KActive s r a (pubkey c b)) (1 + s + r) (KActive s r b (pubkey c a)) (1 + s + r)
          (1 + s + r)
| ph_asked0 a :
    all_at fwd 1 (req c 0 0 a) -> none_at rev 1 ->
    phase c ctx fwd rev (KAwaitRev 0 0 a) 0 KUninit 0 1
| ph_asked_rev s r a b :
    s = r + 1 -> s <= MAX_KEY_ID ->
    all_at fwd (2 + s + r) (req c s (r + 1) a) -> none_at rev (2 + s + r) ->
    phase c ctx fwd rev (KAwaitRev s (r + 1) a) (1 + s + r) (KActive s r b (pubkey c a)) (1 + s + r)
          (2 + s + r)
| ph_asked_conf s r a a' b :
    s = r -> s + 1 <= MAX_KEY_ID ->
    all_at fwd (2 + s + r) (req c (s + 1) r a') -> none_at rev (2 + s + r) ->
    phase c ctx fwd rev (KAwaitConf (s + 1) r a' (pubkey c b)) (1 + s + r)
          (KActive s r b (pubkey c a)) (1 + s + r) (2 + s + r)
| ph_answered_rev s r a b :
    s = r -> s <= MAX_KEY_ID ->
    all_at fwd (1 + s + r) (req c s r a) -> all_at rev (1 + s + r) (ans c s r b) ->
    ctx (1 + s + r) = installed c (kc_root (ctx (s + r))) b (pubkey c a) ->
    phase c ctx fwd rev (KAwaitRev s r a) (s + r) (KActive s r b (pubkey c a)) (1 + s + r) (1 + s + r)
| ph_answered_conf s r a b :
    s = r + 1 -> s <= MAX_KEY_ID ->
    all_at fwd (1 + s + r) (req c s r a) -> all_at rev (1 + s + r) (ans c s r b) ->
    ctx (1 + s + r) = installed c (kc_root (ctx (s + r))) b (pubkey c a) ->
    phase c ctx fwd rev (KAwaitConf s r a (pubkey c b)) (s + r) (KActive s r b (pubkey c a))
          (1 + s + r) (1 + s + r)
| ph_over b a :
    all_at fwd 65535 (req c 32767 32767 a) ->
    phase c ctx fwd rev KPoisoned 65535 (KActive 32767 32767 b (pubkey c a)) 65535 65535.

Definition entry_ok (c : rcrypt) (ctx : N -> kctx) (top : N) (e : entry) : Prop :=
  e_set e <= top /\ e = nth_entry c (ctx (e_set e)) (e_set e) (e_index e).

Record linv (c : rcrypt) (ctx : N -> kctx) (l : link) : Prop := {
  li_phase : phase c ctx (l_fwd l) (l_rev l) (ts_state (l_send l)) (ts_id (l_send l))
                   (ts_state (l_recv l)) (ts_id (l_recv l)) (l_asked l);
  li_send : issued c (ctx (ts_id (l_send l))) (l_send l);
  li_recv : issued c (ctx (ts_id (l_recv l))) (l_recv l);
  li_fwd : forall x k, In (x, k) (l_fwd l) -> 1 <= x <= l_asked l;
  li_rev : forall x k, In (x, k) (l_rev l) -> 1 <= x <= l_asked l;
  li_revk : forall x k, In (x, k) (l_rev l) -> exists i o, k = ReverseKey i o;
  li_out : forall e, In e (l_out l) -> entry_ok c ctx (ts_id (l_send l)) e;
  li_in : forall e, In e (l_in l) -> entry_ok c ctx (ts_id (l_recv l)) e;
  li_errs : forall e i, In (e, i) (l_errs l) -> i = 65535
}.

Lemma linv_init c root key : linv c (fun _ => key_context c root key) (link_new c root key).
Proof. constructor; cbn; try tauto; [constructor|apply issued_new|apply issued_new]. Qed.

Lemma phase_ctx c ctx ctx' fwd rev a i b j n :
  phase c ctx fwd rev a i b j n -> (forall x, x <= i \/ x <= j -> ctx' x = ctx x) ->
  phase c ctx' fwd rev a i b j n.
Proof.
  intros H E. destruct H; try (now constructor); constructor; auto;
    rewrite !E by lia; assumption.
Qed.

Lemma entry_ok_ctx c ctx ctx' top e :
  entry_ok c ctx top e -> (forall x, x <= top -> ctx' x = ctx x) -> entry_ok c ctx' top e.
Proof. intros [H1 H2] E. split; [assumption|]. now rewrite E. Qed.
Lemma entry_ok_top c ctx top top' e : entry_ok c ctx top e -> top <= top' -> entry_ok c ctx top' e.
Proof. intros [H1 H2] E. split; [lia|assumption]. Qed.

Lemma all_at_app log x k y k' :
  all_at log x k -> (y = x -> k' = k) -> all_at (log ++ [(y, k')]) x k.
Proof.
  intros H E k1 Hin. apply in_app_iff in Hin as [Hin|[Hin|[]]]; [now apply H|].
  injection Hin as -> ->. now apply E.
Qed.

Lemma all_at_fresh log x k : (forall y k', In (y, k') log -> y < x) -> all_at log x k.
Proof. intros H k' Hin. apply H in Hin. lia. Qed.
Lemma none_at_fresh log x : (forall y k', In (y, k') log -> y < x) -> none_at log x.
Proof. intros H k' Hin. apply H in Hin. lia. Qed.

Lemma nth_entry_set c k s i : e_set (nth_entry c k s i) = s.
Proof. unfold nth_entry. now destruct (ratchet_once _ _) as [? [? ?]]. Qed.
Lemma nth_entry_index c k s i : e_index (nth_entry c k s i) = i.
Proof. unfold nth_entry. now destruct (ratchet_once _ _) as [? [? ?]]. Qed.

(** A tag is used at either end *)
Lemma linv_send_tag c ctx l : linv c ctx l -> linv c ctx (lstep c true l LSendTag).
Proof.
  intro H. cbn [lstep]. destruct (next_entry c (l_send l)) as [t [e|]] eqn:E; [|exact H].
  pose proof (next_entry_some _ _ _ _ _ (li_send _ _ _ H) E) as (He & Ht & Hi & Hid & Hst & Hlt).
  destruct H. constructor; cbn [l_send l_recv l_fwd l_rev l_asked l_out l_in l_errs]; auto.
  - now rewrite Hid, Hst.
  - now rewrite Hid.
  - intros e' Hin. rewrite Hid. apply in_app_iff in Hin as [Hin|[<-|[]]]; [auto|].
    subst e. unfold entry_ok. rewrite nth_entry_set, nth_entry_index. split; [lia|reflexivity].
Qed.
Lemma linv_recv_tag c ctx l : linv c ctx l -> linv c ctx (lstep c true l LRecvTag).
Proof.
  intro H. cbn [lstep]. destruct (next_entry c (l_recv l)) as [t [e|]] eqn:E; [|exact H].
  pose proof (next_entry_some _ _ _ _ _ (li_recv _ _ _ H) E) as (He & Ht & Hi & Hid & Hst & Hlt).
  destruct H. constructor; cbn [l_send l_recv l_fwd l_rev l_asked l_out l_in l_errs]; auto.
  - now rewrite Hid, Hst.
  - now rewrite Hid.
  - intros e' Hin. rewrite Hid. apply in_app_iff in Hin as [Hin|[<-|[]]]; [auto|].
    subst e. unfold entry_ok. rewrite nth_entry_set, nth_entry_index. split; [lia|reflexivity].
Qed.

Lemma mod2_even r : (1 + (r + 1) + r) mod 2 = 0.
Proof. replace (1 + (r + 1) + r) with ((r + 1) * 2) by lia. apply N.mod_mul. lia. Qed.
Lemma mod2_odd r : (1 + r + r) mod 2 = 1.
Proof. replace (1 + r + r) with (1 + r * 2) by lia. rewrite N.mod_add by lia. reflexivity. Qed.

(** What asking does in each phase *)
Lemma ask_phase c ctx fwd rev t p k stR idR asked r t' :
  phase c ctx fwd rev (ts_state t) (ts_id t) stR idR asked ->
  (forall x k, In (x, k) fwd -> x <= asked) -> (forall x k, In (x, k) rev -> x <= asked) ->
  try_next_key c t p = (t', r) -> r = Ok (Some k) ->
  phase c ctx (fwd ++ [(ts_id t + 1, k)]) rev (ts_state t') (ts_id t) stR idR (ts_id t + 1).
Proof.
  intros H Hf Hr E ->. unfold try_next_key in E.
  destruct (ts_index t <=? RATCHET_THRESHOLD) eqn:Et; [discriminate|].
  assert (forall x k k', asked < x -> all_at (fwd ++ [(x, k)]) x k' -> all_at (fwd ++ [(x, k)]) x k') as _ by auto.
  remember (ts_state t) as st eqn:Es. remember (ts_id t) as id eqn:Ei.
  destruct H as [|s0 r0 a b Hb Hs Hr0 Ha|a Ha Hn|s0 r0 a b Hsr Hs Ha Hn|s0 r0 a a' b Hsr Hs Ha Hn
                |s0 r0 a b Hsr Hs Ha Hv Hc|s0 r0 a b Hsr Hs Ha Hv Hc|b a Ha].
  - apply pair_equal_spec in E as [<- E]. injection E as <-. cbn [ts_with_state ts_state].
    constructor; [|intros k' Hin; apply Hr in Hin; lia].
    apply all_at_app; [|reflexivity]. intros k' Hin. apply Hf in Hin. lia.
  - destruct Hb as [->| ->].
    + rewrite mod2_odd in E. cbn in E.
      destruct (MAX_KEY_ID <? r0 + 1) eqn:El; [discriminate|].
      apply pair_equal_spec in E as [<- E]. injection E as <-. cbn [ts_with_state ts_state].
      replace (1 + r0 + r0 + 1) with (2 + r0 + r0) by lia.
      constructor; try lia; [|intros k' Hin; apply Hr in Hin; lia].
      apply all_at_app; [intros k' Hin; apply Hf in Hin; lia|]. intros _. unfold req.
      replace (r0 + 1 =? 0) with false by lia. cbn [andb]. now replace (r0 + 1 =? r0) with false by lia.
    + rewrite mod2_even in E. cbn in E.
      destruct (MAX_KEY_ID <? r0 + 1) eqn:El; [discriminate|].
      apply pair_equal_spec in E as [<- E]. injection E as <-. cbn [ts_with_state ts_state].
      replace (1 + (r0 + 1) + r0 + 1) with (2 + (r0 + 1) + r0) by lia.
      constructor; try lia; [|intros k' Hin; apply Hr in Hin; lia].
      apply all_at_app; [intros k' Hin; apply Hf in Hin; lia|]. intros _. unfold req.
      replace (r0 + 1 =? 0) with false by lia. cbn [andb]. now rewrite N.eqb_refl.
  - apply pair_equal_spec in E as [<- E]. injection E as <-. rewrite <- Es.
    constructor; [|assumption]. apply all_at_app; [assumption|]. reflexivity.
  - apply pair_equal_spec in E as [<- E]. injection E as <-. rewrite <- Es.
    replace (1 + s0 + r0 + 1) with (2 + s0 + r0) by lia.
    constructor; try assumption. apply all_at_app; [assumption|]. intros _. unfold req.
    subst s0. replace (r0 + 1 =? 0) with false by lia. cbn [andb]. now rewrite N.eqb_refl.
  - apply pair_equal_spec in E as [<- E]. injection E as <-. rewrite <- Es.
    replace (1 + s0 + r0 + 1) with (2 + s0 + r0) by lia.
    constructor; try assumption. apply all_at_app; [assumption|]. intros _. unfold req.
    subst s0. replace (r0 + 1 =? 0) with false by lia. cbn [andb]. now replace (r0 + 1 =? r0) with false by lia.
  - apply pair_equal_spec in E as [<- E]. injection E as <-. rewrite <- Es.
    replace (s0 + r0 + 1) with (1 + s0 + r0) by lia.
    constructor; try assumption. apply all_at_app; [assumption|]. intros _. unfold req.
    subst s0. rewrite N.eqb_refl. reflexivity.
  - apply pair_equal_spec in E as [<- E]. injection E as <-. rewrite <- Es.
    replace (s0 + r0 + 1) with (1 + s0 + r0) by lia.
    constructor; try assumption. apply all_at_app; [assumption|]. intros _. unfold req.
    subst s0. replace (r0 + 1 =? 0) with false by lia. cbn [andb]. now replace (r0 + 1 =? r0) with false by lia.
  - discriminate.
Qed.

Lemma ask_error c ctx fwd rev t p e stR idR asked t' :
  phase c ctx fwd rev (ts_state t) (ts_id t) stR idR asked ->
  try_next_key c t p = (t', Err e) ->
  ts_id t = 65535 /\ phase c ctx fwd rev (ts_state t') (ts_id t) stR idR asked.
Proof.
  intros H E. unfold try_next_key in E.
  destruct (ts_index t <=? RATCHET_THRESHOLD) eqn:Et; [discriminate|].
  remember (ts_state t) as st eqn:Es. remember (ts_id t) as id eqn:Ei.
  destruct H as [|s0 r0 a b Hb Hs Hr0 Ha|a Ha Hn|s0 r0 a b Hsr Hs Ha Hn|s0 r0 a a' b Hsr Hs Ha Hn
                |s0 r0 a b Hsr Hs Ha Hv Hc|s0 r0 a b Hsr Hs Ha Hv Hc|b a Ha]; try discriminate.
  - destruct Hb as [->| ->].
    + rewrite mod2_odd in E. cbn in E.
      destruct (MAX_KEY_ID <? r0 + 1) eqn:El; [|discriminate].
      apply pair_equal_spec in E as [<- E]. injection E as <-. cbn [ts_with_state ts_state].
      unfold MAX_KEY_ID in *. assert (r0 = 32767) as -> by lia. split; [reflexivity|].
      change (1 + 32767 + 32767) with 65535 in *. now constructor.
    + rewrite mod2_even in E. cbn in E. unfold MAX_KEY_ID in *.
      destruct (32767 <? r0 + 1) eqn:El; [|discriminate]. lia.
  - apply pair_equal_spec in E as [<- E]. split; [reflexivity|]. rewrite <- Es. now constructor.
Qed.

Lemma linv_ask c ctx l p : linv c ctx l -> linv c ctx (lstep c true l (LAsk p)).
Proof.
  intro H. cbn [lstep]. destruct (try_next_key c (l_send l) p) as [t [[k|]|e|]] eqn:E; try exact H.
  - assert (ts_ctx t = ts_ctx (l_send l) /\ ts_index t = ts_index (l_send l) /\ ts_id t = ts_id (l_send l))
      as (E1 & E2 & E3).
    { unfold try_next_key in E.
      destruct (_ <=? _); [discriminate|].
      destruct (ts_state (l_send l));
      repeat match goal with
      | [ H : (if ?b then _ else _) = _ |- _ ] => destruct b
      end; apply pair_equal_spec in E as [<- E]; try discriminate; cbn; auto. }
    assert (forall x k, In (x, k) (l_fwd l) -> x <= l_asked l) as F1
      by (intros x k' Hin; apply (li_fwd _ _ _ H) in Hin; lia).
    assert (forall x k, In (x, k) (l_rev l) -> x <= l_asked l) as F2
      by (intros x k' Hin; apply (li_rev _ _ _ H) in Hin; lia).
    pose proof (ask_phase c ctx (l_fwd l) (l_rev l) (l_send l) p k _ _ _ _ _ (li_phase _ _ _ H) F1 F2 E eq_refl) as HP.
    assert (l_asked l <= ts_id (l_send l) + 1) as Hmon.
    { pose proof (li_phase _ _ _ H) as Hp. destruct Hp; lia. }
    destruct H. constructor; cbn [l_send l_recv l_fwd l_rev l_asked l_out l_in l_errs]; auto.
    + now rewrite E3.
    + rewrite E3. destruct li_send0 as [Q1 Q2]. split; rewrite ?E1, ?E2; assumption.
    + intros x k' Hin. apply in_app_iff in Hin as [Hin|[Hin|[]]].
      * apply li_fwd0 in Hin. lia.
      * injection Hin as <- _. lia.
    + intros x k' Hin. apply li_rev0 in Hin. lia.
    + rewrite E3. assumption.
  - pose proof (ask_error _ _ _ _ _ _ _ _ _ _ _ (li_phase _ _ _ H) E) as [E0 HP].
    assert (ts_ctx t = ts_ctx (l_send l) /\ ts_index t = ts_index (l_send l) /\ ts_id t = ts_id (l_send l))
      as (E1 & E2 & E3).
    { unfold try_next_key in E.
      destruct (_ <=? _); [discriminate|].
      destruct (ts_state (l_send l));
      repeat match goal with
      | [ H : (if ?b then _ else _) = _ |- _ ] => destruct b
      end; apply pair_equal_spec in E as [<- E]; try discriminate; cbn; auto. }
    destruct H. constructor; cbn [l_send l_recv l_fwd l_rev l_asked l_out l_in l_errs]; auto.
    + now rewrite E3.
    + rewrite E3. destruct li_send0 as [Q1 Q2]. split; rewrite ?E1, ?E2; assumption.
    + rewrite E3. assumption.
    + intros e' i Hin. apply in_app_iff in Hin as [Hin|[Hin|[]]]; [eauto|].
      injection Hin as <- <-. assumption.
Qed.

(** A request arrives in time *)
Definition upd (ctx : N -> kctx) (i : N) (k : kctx) : N -> kctx :=
  fun x => if x =? i then k else ctx x.
Lemma upd_same ctx i k : upd ctx i k i = k.
Proof. unfold upd. now rewrite N.eqb_refl. Qed.
Lemma upd_other ctx i k x : x <> i -> upd ctx i k x = ctx x.
Proof. intro H. unfold upd. now replace (x =? i) with false by lia. Qed.

Lemma issued_root c k t : issued c k t -> kc_root (ts_ctx t) = kc_root k.
Proof. intros [-> _]. apply nth_ctx_root. Qed.

Lemma reply_reverse c t k p t' r :
  handle_next_key c t k p = (t', Ok (Some r)) -> exists i o, r = ReverseKey i o.
Proof.
  unfold handle_next_key, dup_forward. intro H.
  repeat match goal with
  | [ H : context [match ?x with _ => _ end] |- _ ] => destruct x
  end; apply pair_equal_spec in H as [_ H]; try discriminate; injection H as <-; eauto.
Qed.

Lemma linv_replied c ctx l x r t :
  linv c ctx l -> 1 <= x <= l_asked l -> (exists i o, r = ReverseKey i o) ->
  t = l_recv l ->
  phase c ctx (l_fwd l) (l_rev l ++ [(x, r)]) (ts_state (l_send l)) (ts_id (l_send l))
        (ts_state t) (ts_id t) (l_asked l) ->
  linv c ctx (mkLink (l_send l) t (l_fwd l) (l_rev l ++ [(x, r)]) (l_asked l) (l_out l) (l_in l) (l_errs l)).
Proof.
  intros H Hx Hk -> HP. destruct H.
  constructor; cbn [l_send l_recv l_fwd l_rev l_asked l_out l_in l_errs]; auto.
  - intros y k' Hin. apply in_app_iff in Hin as [Hin|[Hin|[]]]; [eauto|]. injection Hin as <- _. lia.
  - intros y k' Hin. apply in_app_iff in Hin as [Hin|[Hin|[]]]; [eauto|]. injection Hin as _ <-. assumption.
Qed.

Lemma linv_ratcheted c ctx l x r t k :
  linv c ctx l -> 1 <= x <= l_asked l -> (exists i o, r = ReverseKey i o) ->
  ts_id t = ts_id (l_recv l) + 1 -> ts_id (l_recv l) = ts_id (l_send l) -> issued c k t ->
  phase c (upd ctx (ts_id t) k) (l_fwd l) (l_rev l ++ [(x, r)]) (ts_state (l_send l)) (ts_id (l_send l))
        (ts_state t) (ts_id t) (l_asked l) ->
  linv c (upd ctx (ts_id t) k)
       (mkLink (l_send l) t (l_fwd l) (l_rev l ++ [(x, r)]) (l_asked l) (l_out l) (l_in l) (l_errs l)).
Proof.
  intros H Hx Hk Hid Hsame Hiss HP. destruct H.
  constructor; cbn [l_send l_recv l_fwd l_rev l_asked l_out l_in l_errs]; auto.
  - rewrite upd_other by lia. assumption.
  - now rewrite upd_same.
  - intros y k' Hin. apply in_app_iff in Hin as [Hin|[Hin|[]]]; [eauto|]. injection Hin as <- _. lia.
  - intros y k' Hin. apply in_app_iff in Hin as [Hin|[Hin|[]]]; [eauto|]. injection Hin as _ <-. assumption.
  - intros e Hin. apply entry_ok_ctx with ctx; [auto|]. intros y Hy. apply upd_other. lia.
  - intros e Hin. apply entry_ok_top with (ts_id (l_recv l)); [|lia].
    apply entry_ok_ctx with ctx; [auto|]. intros y Hy. apply upd_other. lia.
Qed.

Lemma linv_answer c ctx l n p :
  linv c ctx l -> exists ctx', linv c ctx' (lstep c true l (LAnswer n p)).
Proof.
  intro H. cbn [lstep]. destruct (nth_error (l_fwd l) n) as [[x k]|] eqn:En; [|now exists ctx].
  unfold deliverable. cbn [negb orb]. destruct (x =? l_asked l) eqn:Ex; [|now exists ctx].
  assert (x = l_asked l) as -> by lia. clear Ex. apply nth_error_In in En.
  assert (1 <= l_asked l <= l_asked l) as Hrange by (pose proof (li_fwd _ _ _ H _ _ En); lia).
  pose proof (li_phase _ _ _ H) as HP.
  remember (ts_state (l_send l)) as stS eqn:EsS. remember (ts_id (l_send l)) as idS eqn:EiS.
  remember (ts_state (l_recv l)) as stR eqn:EsR. remember (ts_id (l_recv l)) as idR eqn:EiR.
  remember (l_asked l) as q eqn:Eq.
  destruct HP as [|s r a b Hb Hs Hr Ha|a Ha Hn|s r a b Hsr Hs Ha Hn|s r a a' b Hsr Hs Ha Hn
                 |s r a b Hsr Hs Ha Hv Hc|s r a b Hsr Hs Ha Hv Hc|b a Ha].
  - lia.
  - (* idle: a duplicate *)
    apply Ha in En. subst k. exists ctx.
    assert (exists y, handle_next_key c (l_recv l) (req c s r a) p = (l_recv l, Ok (Some y))) as [y Ey].
    { unfold handle_next_key. rewrite <- EsR. unfold req.
      destruct ((s =? 0) && (r =? 0)); [eexists; reflexivity|].
      destruct (s =? r); rewrite N.ltb_irrefl; eexists; reflexivity. }
    rewrite Ey. rewrite Eq. apply linv_replied; auto; [lia|now apply reply_reverse in Ey|].
    rewrite <- EsS, <- EsR, <- EiS, <- EiR, <- Eq. now constructor.
  - (* asked, first exchange *)
    apply Ha in En. subst k.
    assert (handle_next_key c (l_recv l) (req c 0 0 a) p =
            (ts_reinit c (l_recv l) p (pubkey c a) 0 0, Ok (Some (ans c 0 0 p)))) as ->.
    { unfold handle_next_key. rewrite <- EsR. reflexivity. }
    set (t := ts_reinit c (l_recv l) p (pubkey c a) 0 0).
    exists (upd ctx (ts_id t) (installed c (kc_root (ts_ctx (l_recv l))) p (pubkey c a))).
    rewrite Eq. apply linv_ratcheted; auto; try lia; try apply ans_reverse.
    + rewrite <- EiR. reflexivity.
    + apply reinit_issued.
    + rewrite <- EsS, <- EiS, <- Eq. change (ts_state t) with (KActive 0 0 p (pubkey c a)).
      change (ts_id t) with (1 + 0 + 0).
      apply (ph_answered_rev c _ _ _ 0 0); auto; try (unfold MAX_KEY_ID; lia).
      * apply all_at_app; [intros k' Hin; now apply Hn in Hin|]. reflexivity.
      * rewrite upd_same, upd_other by lia. f_equal.
        rewrite (issued_root _ _ _ (li_recv _ _ _ H)), <- EiR. reflexivity.
  - (* asked, a new key of the receiver *)
    apply Ha in En. subst k s.
    assert (handle_next_key c (l_recv l) (req c (r + 1) (r + 1) a) p =
            (ts_reinit c (l_recv l) p (pubkey c a) (r + 1) (r + 1), Ok (Some (ans c (r + 1) (r + 1) p)))) as ->.
    { unfold handle_next_key, req, ans. rewrite <- EsR.
      replace (r + 1 =? 0) with false by lia. cbn [andb]. rewrite N.eqb_refl.
      replace (r <? r + 1) with true by lia. now replace (MAX_KEY_ID <? r + 1) with false by lia. }
    destruct (reinit_ids c (l_recv l) p (pubkey c a) (r + 1) (r + 1)) as [_ Eid]; try lia.
    set (t := ts_reinit c (l_recv l) p (pubkey c a) (r + 1) (r + 1)) in *.
    exists (upd ctx (ts_id t) (installed c (kc_root (ts_ctx (l_recv l))) p (pubkey c a))).
    rewrite Eq. apply linv_ratcheted; auto; try lia; try apply ans_reverse.
    + apply reinit_issued.
    + rewrite <- EsS, <- EiS, <- Eq. change (ts_state t) with (KActive (r + 1) (r + 1) p (pubkey c a)).
      rewrite Eid. replace (1 + (r + 1) + r) with ((r + 1) + (r + 1)) by lia.
      replace (2 + (r + 1) + r) with (1 + (r + 1) + (r + 1)) in * by lia.
      apply (ph_answered_rev c _ _ _ (r + 1) (r + 1)); auto; try lia.
      * apply all_at_app; [intros k' Hin; now apply Hn in Hin|]. reflexivity.
      * rewrite upd_same, upd_other by lia. f_equal.
        rewrite (issued_root _ _ _ (li_recv _ _ _ H)), <- EiR. do 2 f_equal. lia.
  - (* asked, a new key of the sender *)
    apply Ha in En. subst k s.
    assert (handle_next_key c (l_recv l) (req c (r + 1) r a') p =
            (ts_reinit c (l_recv l) b (pubkey c a') (r + 1) r, Ok (Some (ans c (r + 1) r b)))) as ->.
    { unfold handle_next_key, req, ans. rewrite <- EsR.
      replace (r + 1 =? 0) with false by lia. cbn [andb].
      replace (r + 1 =? r) with false by lia.
      replace (r <? r + 1) with true by lia. now replace (MAX_KEY_ID <? r + 1) with false by lia. }
    destruct (reinit_ids c (l_recv l) b (pubkey c a') (r + 1) r) as [_ Eid]; try lia.
    set (t := ts_reinit c (l_recv l) b (pubkey c a') (r + 1) r) in *.
    exists (upd ctx (ts_id t) (installed c (kc_root (ts_ctx (l_recv l))) b (pubkey c a'))).
    rewrite Eq. apply linv_ratcheted; auto; try lia; try apply ans_reverse.
    + apply reinit_issued.
    + rewrite <- EsS, <- EiS, <- Eq. change (ts_state t) with (KActive (r + 1) r b (pubkey c a')).
      rewrite Eid. replace (1 + r + r) with ((r + 1) + r) by lia.
      replace (2 + r + r) with (1 + (r + 1) + r) in * by lia.
      apply (ph_answered_conf c _ _ _ (r + 1) r); auto; try lia.
      * apply all_at_app; [intros k' Hin; now apply Hn in Hin|]. reflexivity.
      * rewrite upd_same, upd_other by lia. f_equal.
        rewrite (issued_root _ _ _ (li_recv _ _ _ H)), <- EiR. do 2 f_equal. lia.
  - (* answered: a duplicate, answered again *)
    apply Ha in En. subst k s. exists ctx.
    assert (handle_next_key c (l_recv l) (req c r r a) p = (l_recv l, Ok (Some (ans c r r b)))) as ->.
    { unfold handle_next_key, req, ans. rewrite <- EsR. rewrite N.eqb_refl.
      destruct (r =? 0) eqn:E0; cbn [andb].
      - assert (r = 0) as -> by lia. reflexivity.
      - now rewrite N.ltb_irrefl. }
    rewrite Eq. apply linv_replied; auto; [lia|apply ans_reverse|].
    rewrite <- EsS, <- EsR, <- EiS, <- EiR, <- Eq.
    apply (ph_answered_rev c _ _ _ r r); auto. apply all_at_app; [assumption|reflexivity].
  - apply Ha in En. subst k s. exists ctx.
    assert (handle_next_key c (l_recv l) (req c (r + 1) r a) p = (l_recv l, Ok (Some (ans c (r + 1) r b)))) as ->.
    { unfold handle_next_key, req, ans. rewrite <- EsR.
      replace (r + 1 =? 0) with false by lia. cbn [andb].
      replace (r + 1 =? r) with false by lia. now rewrite N.ltb_irrefl. }
    rewrite Eq. apply linv_replied; auto; [lia|apply ans_reverse|].
    rewrite <- EsS, <- EsR, <- EiS, <- EiR, <- Eq.
    apply (ph_answered_conf c _ _ _ (r + 1) r); auto. apply all_at_app; [assumption|reflexivity].
  - apply Ha in En. subst k. exists ctx.
    assert (exists y, handle_next_key c (l_recv l) (req c 32767 32767 a) p = (l_recv l, Ok (Some y))) as [y Ey].
    { unfold handle_next_key. rewrite <- EsR. eexists; reflexivity. }
    rewrite Ey, Eq. apply linv_replied; auto; [lia|now apply reply_reverse in Ey|].
    rewrite <- EsS, <- EsR, <- EiS, <- EiR, <- Eq. now constructor.
Qed.

(** An answer arrives in time *)
Lemma linv_done c ctx l n :
  rcrypt_ok c -> linv c ctx l -> linv c ctx (lstep c true l (LDone n)).
Proof.
  intros Hc0 H. destruct Hc0 as (_ & Hdh & _).
  cbn [lstep]. destruct (nth_error (l_rev l) n) as [[x k]|] eqn:En; [|exact H].
  unfold deliverable. cbn [negb orb]. destruct (x =? l_asked l) eqn:Ex; [|exact H].
  assert (x = l_asked l) as -> by lia. clear Ex. apply nth_error_In in En.
  assert (1 <= l_asked l) as Hrange by (pose proof (li_rev _ _ _ H _ _ En); lia).
  pose proof (li_phase _ _ _ H) as HP.
  remember (ts_state (l_send l)) as stS eqn:EsS. remember (ts_id (l_send l)) as idS eqn:EiS.
  remember (ts_state (l_recv l)) as stR eqn:EsR. remember (ts_id (l_recv l)) as idR eqn:EiR.
  remember (l_asked l) as q eqn:Eq.
  assert (forall t, handle_next_key c (l_send l) k [] = (t, Ok None) -> t = l_send l ->
          linv c ctx (mkLink t (l_recv l) (l_fwd l) (l_rev l) q (l_out l) (l_in l) (l_errs l))) as Hsame.
  { intros t _ ->. subst q. destruct H. constructor; cbn; auto. }
  assert (forall t, ts_id t = idS + 1 -> issued c (ctx (ts_id t)) t ->
          phase c ctx (l_fwd l) (l_rev l) (ts_state t) (ts_id t) (ts_state (l_recv l)) (ts_id (l_recv l)) q ->
          linv c ctx (mkLink t (l_recv l) (l_fwd l) (l_rev l) q (l_out l) (l_in l) (l_errs l))) as Hup.
  { intros t Hid Hiss Hph. subst q. destruct H. constructor; cbn; auto.
    intros e Hin. apply entry_ok_top with (ts_id (l_send l)); [auto|]. lia. }
  destruct HP as [|s r a b Hb Hs Hr Ha|a Ha Hn|s r a b Hsr Hs Ha Hn|s r a a' b Hsr Hs Ha Hn
                 |s r a b Hsr Hs Ha Hv Hc|s r a b Hsr Hs Ha Hv Hc|b a Ha].
  - lia.
  - destruct (li_revk _ _ _ H _ _ En) as (i & o & ->).
    assert (handle_next_key c (l_send l) (ReverseKey i o) [] = (l_send l, Ok None)) as E.
    { unfold handle_next_key. now rewrite <- EsS. }
    rewrite E. now apply Hsame.
  - exfalso. now apply Hn in En.
  - exfalso. now apply Hn in En.
  - exfalso. now apply Hn in En.
  - apply Hv in En. subst k s.
    assert (handle_next_key c (l_send l) (ans c r r b) [] = (ts_reinit c (l_send l) a (pubkey c b) r r, Ok None)) as ->.
    { unfold handle_next_key, ans. rewrite N.eqb_refl, <- EsS. reflexivity. }
    destruct (reinit_ids c (l_send l) a (pubkey c b) r r) as [_ Eid]; try lia.
    apply Hup; [lia| |].
    + rewrite Eid, Hc. unfold installed. rewrite (Hdh b a).
      pose proof (issued_root _ _ _ (li_send _ _ _ H)) as Er. rewrite <- EiS in Er. rewrite <- Er.
      apply reinit_issued.
    + rewrite Eid, <- EsR, <- EiR.
      change (ts_state (ts_reinit c (l_send l) a (pubkey c b) r r)) with (KActive r r a (pubkey c b)).
      constructor; auto. now left.
  - apply Hv in En. subst k s.
    assert (handle_next_key c (l_send l) (ans c (r + 1) r b) []
            = (ts_reinit c (l_send l) a (pubkey c b) (r + 1) r, Ok None)) as ->.
    { unfold handle_next_key, ans. replace (r + 1 =? r) with false by lia. rewrite <- EsS. reflexivity. }
    destruct (reinit_ids c (l_send l) a (pubkey c b) (r + 1) r) as [_ Eid]; try lia.
    apply Hup; [lia| |].
    + rewrite Eid, Hc. unfold installed. rewrite (Hdh b a).
      pose proof (issued_root _ _ _ (li_send _ _ _ H)) as Er. rewrite <- EiS in Er. rewrite <- Er.
      apply reinit_issued.
    + rewrite Eid, <- EsR, <- EiR.
      change (ts_state (ts_reinit c (l_send l) a (pubkey c b) (r + 1) r)) with (KActive (r + 1) r a (pubkey c b)).
      constructor; auto; try lia. now right.
  - assert (handle_next_key c (l_send l) k [] = (ts_with_state (l_send l) KPoisoned, Err EInvalidState)) as ->.
    { unfold handle_next_key. now rewrite <- EsS. }
    assert (ts_with_state (l_send l) KPoisoned = l_send l) as ->.
    { unfold ts_with_state. destruct (l_send l). cbn in *. now subst. }
    destruct H. constructor; cbn [l_send l_recv l_fwd l_rev l_asked l_out l_in l_errs]; auto.
    + rewrite <- EsS, <- EsR, <- EiS, <- EiR. now constructor.
    + now rewrite Eq.
    + now rewrite Eq.
    + intros e' i Hin. apply in_app_iff in Hin as [Hin|[Hin|[]]]; [eauto|].
      injection Hin as <- <-. now symmetry.
Qed.

Lemma linv_step c ctx l o :
  rcrypt_ok c -> linv c ctx l -> exists ctx', linv c ctx' (lstep c true l o).
Proof.
  intros Hc H. destruct o as [| |p|n p|n].
  - exists ctx. now apply linv_send_tag.
  - exists ctx. now apply linv_recv_tag.
  - exists ctx. now apply linv_ask.
  - now apply linv_answer with ctx.
  - exists ctx. now apply linv_done.
Qed.

Lemma linv_run c root key ops : rcrypt_ok c -> exists ctx, linv c ctx (lrun c true root key ops).
Proof.
  intro Hc. induction ops as [|o ops [ctx IH]] using rev_ind.
  - eexists. apply linv_init.
  - unfold lrun. rewrite fold_left_app. cbn [fold_left]. now apply linv_step with ctx.
Qed.

(** Consequences *)
Lemma run_agrees c root key ops : rcrypt_ok c -> link_agrees (lrun c true root key ops).
Proof.
  intros Hc e e' H1 H2 Hs Hi. destruct (linv_run c root key ops Hc) as [ctx Hl].
  destruct (li_out _ _ _ Hl _ H1) as [_ ->], (li_in _ _ _ Hl _ H2) as [_ ->]. now rewrite Hs, Hi.
Qed.

Lemma phase_ids c ctx fwd rev sS iS sR iR q :
  phase c ctx fwd rev sS iS sR iR q -> iS <= iR <= iS + 1 /\ iR <= 65535 /\ iR <= q <= iS + 1.
Proof. intro H. unfold MAX_KEY_ID in *. destruct H; unfold balanced, MAX_KEY_ID in *; lia. Qed.

Lemma fwd_current c ctx l :
  linv c ctx l -> RATCHET_THRESHOLD < ts_index (l_send l) -> ts_id (l_send l) < 65535 ->
  forall p, exists t k, try_next_key c (l_send l) p = (t, Ok (Some k)).
Proof.
  intros H Hi Hid p. unfold try_next_key.
  replace (ts_index (l_send l) <=? RATCHET_THRESHOLD) with false by lia.
  pose proof (li_phase _ _ _ H) as HP.
  remember (ts_state (l_send l)) as st. remember (ts_id (l_send l)) as id.
  destruct HP as [|s r a b Hb Hs Hr Ha|a Ha Hn|s r a b Hsr Hs Ha Hn|s r a a' b Hsr Hs Ha Hn
                 |s r a b Hsr Hs Ha Hv Hc|s r a b Hsr Hs Ha Hv Hc|b a Ha]; try lia; try (do 2 eexists; reflexivity).
  - destruct Hb as [->| ->]; unfold MAX_KEY_ID in *.
    + rewrite mod2_odd. cbn. replace (32767 <? r + 1) with false by lia. do 2 eexists; reflexivity.
    + rewrite mod2_even. cbn. replace (32767 <? r + 1) with false by lia. do 2 eexists; reflexivity.
Qed.

Lemma ask_progress c ctx l p :
  linv c ctx l -> RATCHET_THRESHOLD < ts_index (l_send l) -> ts_id (l_send l) < 65535 ->
  let l1 := lstep c true l (LAsk p) in
  exists k, l_fwd l1 = l_fwd l ++ [(ts_id (l_send l) + 1, k)] /\ l_rev l1 = l_rev l /\
  l_asked l1 = ts_id (l_send l) + 1 /\ ts_id (l_send l1) = ts_id (l_send l).
Proof.
  intros H Hi Hid l1. destruct (fwd_current c ctx l H Hi Hid p) as (t & k & E).
  assert (ts_id t = ts_id (l_send l)) as E3.
  { unfold try_next_key in E. destruct (_ <=? _); [discriminate|].
    destruct (ts_state (l_send l));
      repeat match goal with
      | [ H : (if ?b then _ else _) = _ |- _ ] => destruct b
      end; apply pair_equal_spec in E as [<- E]; try discriminate; cbn; auto. }
  exists k. subst l1. cbn [lstep]. rewrite E. cbn [l_fwd l_rev l_asked l_send]. auto.
Qed.

Lemma answer_progress c ctx l n p k :
  linv c ctx l -> l_asked l = ts_id (l_send l) + 1 -> nth_error (l_fwd l) n = Some (l_asked l, k) ->
  let l1 := lstep c true l (LAnswer n p) in
  exists r, l_rev l1 = l_rev l ++ [(l_asked l, r)] /\ l_asked l1 = l_asked l /\
  l_send l1 = l_send l /\ ts_id (l_recv l1) = l_asked l.
Proof.
  intros H Ha En l1.
  assert (exists t r, handle_next_key c (l_recv l) k p = (t, Ok (Some r)) /\ ts_id t = l_asked l) as (t & r & E & Et).
  { pose proof (nth_error_In _ _ En) as Hin. pose proof (li_phase _ _ _ H) as HP.
    unfold handle_next_key.
    remember (ts_state (l_send l)) as stS eqn:EsS. remember (ts_id (l_send l)) as idS eqn:EiS.
    remember (ts_state (l_recv l)) as stR eqn:EsR. remember (ts_id (l_recv l)) as idR eqn:EiR.
    remember (l_asked l) as q eqn:Eq.
    destruct HP as [|s r a b Hb Hs Hr Hf|a Hf Hn|s r a b Hsr Hs Hf Hn|s r a a' b Hsr Hs Hf Hn
                   |s r a b Hsr Hs Hf Hv Hc|s r a b Hsr Hs Hf Hv Hc|b a Hf]; try lia;
      apply Hf in Hin; subst k; unfold req; try subst s.
    - do 2 eexists. split; reflexivity.
    - replace (r + 1 =? 0) with false by lia. cbn [andb]. rewrite N.eqb_refl.
      replace (r <? r + 1) with true by lia. replace (MAX_KEY_ID <? r + 1) with false by lia.
      do 2 eexists. split; [reflexivity|].
      destruct (reinit_ids c (l_recv l) p (pubkey c a) (r + 1) (r + 1)) as [_ Eid]; try lia.
    - replace (r + 1 =? 0) with false by lia. cbn [andb]. replace (r + 1 =? r) with false by lia.
      replace (r <? r + 1) with true by lia. replace (MAX_KEY_ID <? r + 1) with false by lia.
      do 2 eexists. split; [reflexivity|].
      destruct (reinit_ids c (l_recv l) b (pubkey c a') (r + 1) r) as [_ Eid]; try lia.
    - rewrite N.eqb_refl. destruct (r =? 0) eqn:E0; cbn [andb].
      + do 2 eexists. split; [reflexivity|]. lia.
      + rewrite N.ltb_irrefl. do 2 eexists. split; [reflexivity|]. lia.
    - replace (r + 1 =? 0) with false by lia. cbn [andb]. replace (r + 1 =? r) with false by lia.
      rewrite N.ltb_irrefl. do 2 eexists. split; [reflexivity|]. lia. }
  exists r. subst l1. cbn [lstep]. rewrite En. unfold deliverable. rewrite N.eqb_refl. cbn [negb orb].
  rewrite E. cbn. auto.
Qed.

Lemma done_progress c ctx l n k :
  linv c ctx l -> l_asked l = ts_id (l_send l) + 1 -> ts_id (l_recv l) = l_asked l ->
  nth_error (l_rev l) n = Some (l_asked l, k) ->
  let l1 := lstep c true l (LDone n) in
  ts_id (l_send l1) = l_asked l /\ ts_index (l_send l1) = 0 /\ l_recv l1 = l_recv l.
Proof.
  intros H Ha Hr0 En l1.
  assert (exists t, handle_next_key c (l_send l) k [] = (t, Ok None) /\ ts_id t = l_asked l /\ ts_index t = 0) as (t & E & Et & Ei).
  { pose proof (nth_error_In _ _ En) as Hin. pose proof (li_phase _ _ _ H) as HP.
    unfold handle_next_key.
    remember (ts_state (l_send l)) as stS eqn:EsS. remember (ts_id (l_send l)) as idS eqn:EiS.
    remember (ts_state (l_recv l)) as stR eqn:EsR. remember (ts_id (l_recv l)) as idR eqn:EiR.
    remember (l_asked l) as q eqn:Eq.
    destruct HP as [|s r a b Hb Hs Hr Hf|a Hf Hn|s r a b Hsr Hs Hf Hn|s r a a' b Hsr Hs Hf Hn
                   |s r a b Hsr Hs Hf Hv Hc|s r a b Hsr Hs Hf Hv Hc|b a Hf]; try lia;
      apply Hv in Hin; subst k s; unfold ans.
    - rewrite N.eqb_refl. eexists. split; [reflexivity|].
      destruct (reinit_ids c (l_send l) a (pubkey c b) r r) as [_ Eid]; try lia. split; [lia|reflexivity].
    - replace (r + 1 =? r) with false by lia. eexists. split; [reflexivity|].
      destruct (reinit_ids c (l_send l) a (pubkey c b) (r + 1) r) as [_ Eid]; try lia. split; [lia|reflexivity]. }
  subst l1. cbn [lstep]. rewrite En. unfold deliverable. rewrite N.eqb_refl. cbn [negb orb].
  rewrite E. cbn. auto.
Qed.

Lemma exchange_completes c root key ops p p' :
  rcrypt_ok c ->
  let l := lrun c true root key ops in
  RATCHET_THRESHOLD < ts_index (l_send l) -> ts_id (l_send l) < 65535 ->
  let l' := lrun c true root key
              (ops ++ [LAsk p; LAnswer (List.length (l_fwd l)) p'; LDone (List.length (l_rev l))]) in
  ts_id (l_send l') = ts_id (l_send l) + 1 /\ ts_id (l_recv l') = ts_id (l_send l) + 1 /\
  ts_index (l_send l') = 0 /\
  (exists k, issued c k (l_send l') /\ issued c k (l_recv l')).
Proof.
  intros Hc l Hi Hid l'. destruct (linv_run c root key ops Hc) as [ctx H]. fold l in H.
  destruct (ask_progress c ctx l p H Hi Hid) as (k & F1 & F2 & F3 & F4).
  set (l1 := lstep c true l (LAsk p)) in *.
  pose proof (linv_ask c ctx l p H) as H1. fold l1 in H1.
  assert (nth_error (l_fwd l1) (List.length (l_fwd l)) = Some (l_asked l1, k)) as N1.
  { rewrite F1, nth_error_app2, Nat.sub_diag, F3; [reflexivity|lia]. }
  assert (l_asked l1 = ts_id (l_send l1) + 1) as A1 by congruence.
  destruct (answer_progress c ctx l1 _ p' k H1 A1 N1) as (r & G1 & G2 & G3 & G4).
  destruct (linv_answer c ctx l1 (List.length (l_fwd l)) p' H1) as [ctx2 H2].
  set (l2 := lstep c true l1 (LAnswer (List.length (l_fwd l)) p')) in *.
  assert (nth_error (l_rev l2) (List.length (l_rev l)) = Some (l_asked l2, r)) as N2.
  { rewrite G1, F2, nth_error_app2, Nat.sub_diag, G2; [reflexivity|lia]. }
  assert (l_asked l2 = ts_id (l_send l2) + 1) as A2 by (rewrite G2, G3; exact A1).
  assert (ts_id (l_recv l2) = l_asked l2) as A3 by (rewrite G2; exact G4).
  destruct (done_progress c ctx2 l2 _ r H2 A2 A3 N2) as (K1 & K2 & K3).
  pose proof (linv_done c ctx2 l2 (List.length (l_rev l)) Hc H2) as H3.
  assert (l' = lstep c true l2 (LDone (List.length (l_rev l)))) as El'.
  { unfold l', lrun. rewrite fold_left_app. reflexivity. }
  rewrite El'. set (l3 := lstep c true l2 (LDone (List.length (l_rev l)))) in *.
  rewrite K3. assert (ts_id (l_send l3) = ts_id (l_send l) + 1) as Q1 by congruence.
  assert (ts_id (l_recv l2) = ts_id (l_send l) + 1) as Q2 by congruence.
  repeat (split; [assumption|]). exists (ctx2 (ts_id (l_send l) + 1)). split.
  - pose proof (li_send _ _ _ H3) as Q. now rewrite Q1 in Q.
  - pose proof (li_recv _ _ _ H2) as Q. now rewrite Q2 in Q.
Qed.
