(** Histories of calls on a tunnel pool's context. *)
From Coq Require Import List NArith Bool Lia Arith ZArith ZifyBool ZifyNat ZifyN.
From Verif Require Import ListUtil Bytes NMap I2npModel RouteModel RouteProofs PctxModel PctxSpec PctxProofs.
Import ListNotations.
Open Scope N_scope.

Lemma run_app c a b :
  run c (a ++ b) = let '(c1, x) := run c a in let '(c2, y) := run c1 b in (c2, x ++ y).
Proof.
  revert c. induction a as [|o a IH]; intro c; simpl.
  - now destruct (run c b).
  - destruct (step c o) as [c1 u]. rewrite IH. destruct (run c1 a) as [c2 x].
    now destruct (run c2 b).
Qed.

Lemma meant_app p a b : meant_for p (a ++ b) = meant_for p a ++ meant_for p b.
Proof. unfold meant_for. now rewrite filter_app, map_app. Qed.

Lemma run_fine : forall ops c W c' tr,
  agree c W -> run c ops = (c', tr) -> orderly W tr ->
  agree c' (waits W tr) /\
  (forall p, existsb (drops p) ops = false ->
     waiting p c ++ meant_for p (accepted W tr) = got p tr ++ waiting p c').
Proof.
  induction ops as [|o ops IH]; intros c W c' tr A; cbn [run].
  - intro H; apply pair_equal_spec in H as [<- <-]. intros _. split; [exact A|].
    intros p _. simpl. now rewrite app_nil_r.
  - destruct (step c o) as [c1 u] eqn:Es. destruct (run c1 ops) as [c2 us] eqn:Er.
    intro H; apply pair_equal_spec in H as [<- <-]. intros [Ho Hr].
    destruct (step_fine _ _ _ _ _ A Es Ho) as [A1 E1].
    destruct (IH _ _ _ _ A1 Er Hr) as [A2 E2]. split; [exact A2|].
    intros p Hd. cbn [existsb] in Hd. apply orb_false_iff in Hd as [D1 D2].
    cbn [accepted]. rewrite meant_app, app_assoc, (E1 p D1), <- app_assoc, (E2 p D2).
    unfold got. cbn [flat_map]. now rewrite app_assoc.
Qed.

(** ** A listener gets at most one message *)
Definition credit (c : ctx) (h : N) : nat :=
  if cx_next c <=? h then 1%nat
  else match nget h (cx_one c) with Some OneWait | Some (OneFull _) => 1%nat | _ => 0%nat end.
Definition fresh (c : ctx) : Prop := forall h, cx_next c <= h -> nget h (cx_one c) = None.

(** What a routed message does to the receivers of the listeners. *)
Lemma route_one c m c' o :
  route_message c m = (c', o) ->
  cx_next c' = cx_next c /\
  (cx_one c' = cx_one c \/
   exists h, nget h (cx_one c) = Some OneWait /\ cx_one c' = nput h (OneFull m) (cx_one c)).
Proof.
  assert (G : forall c id h c' r, give c id h m = (c', r) ->
    cx_next c' = cx_next c /\
    (cx_one c' = cx_one c \/
     exists h, nget h (cx_one c) = Some OneWait /\ cx_one c' = nput h (OneFull m) (cx_one c))).
  { intros c0 id h c1 r. unfold give. cbv zeta. cbn [cx_one v_listen].
    destruct (nget h (cx_one c0)) as [[|m0|]|] eqn:E; intro H; apply pair_equal_spec in H as [<- _];
      (split; [reflexivity|]); auto. right. exists h. auto. }
  assert (L : forall c id c' r, to_listener_or_pool c id m = (c', r) ->
    cx_next c' = cx_next c /\
    (cx_one c' = cx_one c \/
     exists h, nget h (cx_one c) = Some OneWait /\ cx_one c' = nput h (OneFull m) (cx_one c))).
  { intros c0 id c1 r. unfold to_listener_or_pool. destruct (nget id (cx_listen c0)); [apply G|].
    destruct (try_send (cx_pool c0) m); intro H; apply pair_equal_spec in H as [<- _]; split; auto. }
  assert (O : forall c c' r, to_owner c m = (c', r) -> cx_next c' = cx_next c /\ cx_one c' = cx_one c).
  { intros c0 c1 r. unfold to_owner. destruct (try_send (cx_owner c0) (EvMessage m)); intro H;
      apply pair_equal_spec in H as [<- _]; split; auto. }
  unfold route_message, out_of.
  assert (Ow : (fst (to_owner c m), ROut (snd (to_owner c m))) = (c', o) ->
    cx_next c' = cx_next c /\
  (cx_one c' = cx_one c \/
   exists h, nget h (cx_one c) = Some OneWait /\ cx_one c' = nput h (OneFull m) (cx_one c))).
  { destruct (to_owner c m) as [c1 r] eqn:E. intro H; apply pair_equal_spec in H as [<- _].
    destruct (O _ _ _ E) as [A B]. split; auto. }
  assert (Lp : forall c0, cx_next c0 = cx_next c -> cx_one c0 = cx_one c -> forall id,
    (fst (to_listener_or_pool c0 id m), ROut (snd (to_listener_or_pool c0 id m))) = (c', o) ->
    cx_next c' = cx_next c /\
  (cx_one c' = cx_one c \/
   exists h, nget h (cx_one c) = Some OneWait /\ cx_one c' = nput h (OneFull m) (cx_one c))).
  { intros c0 N0 O0 id. destruct (to_listener_or_pool c0 id m) as [c1 r] eqn:E.
    intro H; apply pair_equal_spec in H as [<- _]. destruct (L _ _ _ _ E) as [A B].
    rewrite N0 in A. rewrite O0 in B. auto. }
  destruct (m_type m); try exact Ow; try (apply Lp; reflexivity).
  - destruct (garlic_tag (m_payload m)) as [tag|];
      [|intro H; apply pair_equal_spec in H as [<- _]; auto].
    destruct (nget tag (cx_tags c)) as [id|]; [apply Lp; reflexivity|].
    destruct (nget (m_id m) (cx_listen c)) as [h|]; [|exact Ow].
    destruct (give c (m_id m) h m) as [c1 r] eqn:E. intro H; apply pair_equal_spec in H as [<- _].
    exact (G _ _ _ _ _ E).
  - apply Lp; [apply drop_association_next | apply drop_association_one].
Qed.

Lemma step_one c o c' u h : fresh c -> step c o = (c', u) ->
  fresh c' /\ (length (gets (PListener h) (o, u)) + credit c' h <= credit c h)%nat.
Proof.
  intro F. destruct o; simpl step.
  - unfold add_listener. destruct (draw_free draws (cx_listen c)) as [id|];
      intro H; apply pair_equal_spec in H as [<- <-].
    + split.
      * intros k Hk. cbn [cx_one cx_next v_next v_one v_listen] in *. rewrite nget_nput.
        destruct (N.eqb_spec k (cx_next c)); [lia|]. apply F. lia.
      * unfold credit. cbn [cx_one cx_next v_next v_one v_listen gets length plus]. rewrite nget_nput.
        destruct (N.eqb_spec h (cx_next c)) as [->|].
        -- rewrite N.leb_refl. destruct (cx_next c + 1 <=? cx_next c); lia.
        -- destruct (N.leb_spec (cx_next c + 1) h), (N.leb_spec (cx_next c) h); lia.
    + split; [exact F|]. simpl. lia.
  - intro H; apply pair_equal_spec in H as [<- <-]. split; [exact F|]. cbn. apply Nat.le_refl.
  - intro H; apply pair_equal_spec in H as [<- <-]. unfold remove_listener. split.
    + intros k Hk. rewrite drop_association_one, drop_association_next in *. exact (F k Hk).
    + unfold credit. rewrite drop_association_one, drop_association_next. cbn. apply Nat.le_refl.
  - destruct (route_message c m) as [c1 r] eqn:E. intro H; apply pair_equal_spec in H as [<- <-].
    apply route_one in E as [N1 [O1|(k & Hk & O1)]].
    + split; [intros x Hx; rewrite O1; apply F; lia|]. unfold credit. rewrite N1, O1. cbn. apply Nat.le_refl.
    + split.
      * intros x Hx. rewrite O1, nget_nput. destruct (N.eqb_spec x k) as [->|]; [|apply F; lia].
        rewrite F in Hk by lia. discriminate.
      * unfold credit. rewrite N1, O1, nget_nput. cbn [gets length plus].
        destruct (N.eqb_spec h k) as [->|]; [rewrite Hk|]; apply Nat.le_refl.
  - unfold register. destruct (try_send (cx_owner c) ev); intro H; apply pair_equal_spec in H as [<- <-];
      (split; [exact F|]; cbn; apply Nat.le_refl).
  - unfold recv_one. destruct (nget h0 (cx_one c)) as [[|m|]|] eqn:Eh;
      intro H; apply pair_equal_spec in H as [<- <-]; try (split; [exact F|]; simpl; apply Nat.le_refl).
    split.
    + intros k Hk. cbn [cx_one cx_next v_one] in *. rewrite nget_nput.
      destruct (N.eqb_spec k h0) as [->|]; [rewrite F in Eh by exact Hk; discriminate | auto].
    + unfold credit. cbn [cx_one cx_next v_one gets place_eqb]. rewrite nget_nput.
      destruct (N.eqb_spec h h0) as [->|]; [|apply Nat.le_refl].
      destruct (N.leb_spec (cx_next c) h0); [rewrite F in Eh by assumption; discriminate|].
      rewrite Eh. simpl. lia.
  - intro H; apply pair_equal_spec in H as [<- <-]. unfold drop_one.
    destruct (nget h0 (cx_one c)) as [x|] eqn:Eh; [|split; [exact F|]; simpl; apply Nat.le_refl].
    split.
    + intros k Hk. cbn [cx_one cx_next v_one] in *. rewrite nget_nput.
      destruct (N.eqb_spec k h0) as [->|]; [rewrite F in Eh by exact Hk; discriminate | auto].
    + unfold credit. cbn [cx_one cx_next v_one gets length plus]. rewrite nget_nput.
      destruct (N.eqb_spec h h0) as [->|]; [|apply Nat.le_refl].
      destruct (cx_next c <=? h0); lia.
  - unfold recv_owner. destruct (ch_q (cx_owner c)); intro H; apply pair_equal_spec in H as [<- <-];
      (split; [exact F|]; cbn; apply Nat.le_refl).
  - intro H; apply pair_equal_spec in H as [<- <-]. split; [exact F|]. cbn. apply Nat.le_refl.
  - unfold recv_pool. destruct (ch_q (cx_pool c)); intro H; apply pair_equal_spec in H as [<- <-];
      (split; [exact F|]; cbn; apply Nat.le_refl).
  - intro H; apply pair_equal_spec in H as [<- <-]. split; [exact F|]. cbn. apply Nat.le_refl.
Qed.

Lemma run_one h : forall ops c c' tr, fresh c -> run c ops = (c', tr) ->
  (length (got (PListener h) tr) + credit c' h <= credit c h)%nat.
Proof.
  induction ops as [|o ops IH]; intros c c' tr F; cbn [run].
  - intro H; apply pair_equal_spec in H as [<- <-]. simpl. lia.
  - destruct (step c o) as [c1 u] eqn:Es. destruct (run c1 ops) as [c2 us] eqn:Er.
    intro H; apply pair_equal_spec in H as [<- <-].
    destruct (step_one _ _ _ _ h F Es) as [F1 L1]. specialize (IH _ _ _ F1 Er).
    unfold got in *. cbn [flat_map]. rewrite app_length. lia.
Qed.

(** ** Who waits can be reached *)
Record held (ops : list op) (c : ctx) (W : list wait) : Prop := mkHeld {
  he_w : forall w, In w W -> w_h w < cx_next c /\
           (existsb (drops (PListener (w_h w))) ops = false -> nget (w_h w) (cx_one c) = Some OneWait);
  he_n : NoDup (map w_h W);
  he_owner : ch_cap (cx_owner c) = 64 /\ (existsb (drops POwner) ops = false -> ch_open (cx_owner c) = true);
  he_pool : ch_cap (cx_pool c) = 4096 /\ (existsb (drops PPool) ops = false -> ch_open (cx_pool c) = true) }.

Lemma held_new : held [] cx_new [].
Proof. constructor; [intros w [] | constructor | split; reflexivity | split; reflexivity]. Qed.

Lemma NoDup_map_forget id W : NoDup (map w_h W) -> NoDup (map w_h (forget id W)).
Proof.
  unfold forget. induction W as [|w W IH]; simpl; [auto|]. intro H.
  inversion H as [|? ? Hn Hd]; subst. destruct (negb (w_id w =? id)); simpl; [|auto].
  constructor; [|auto]. intro X. apply Hn. apply in_map_iff in X as (y & E & Y).
  apply filter_In in Y as [Y _]. rewrite <- E. now apply in_map.
Qed.

Lemma snoc_drops p ops o : existsb (drops p) (ops ++ [o]) = existsb (drops p) ops || drops p o.
Proof. rewrite existsb_app. simpl. now rewrite orb_false_r. Qed.

(** Nothing changes for those who wait. *)
Lemma held_same ops o c c' W W' :
  held ops c W -> (forall w, In w W' -> In w W) -> NoDup (map w_h W') ->
  cx_next c' = cx_next c -> 
  (forall w, In w W' -> drops (PListener (w_h w)) o = false ->
     nget (w_h w) (cx_one c') = nget (w_h w) (cx_one c)) ->
  (ch_cap (cx_owner c') = 64 /\ (drops POwner o = false -> ch_open (cx_owner c) = true -> ch_open (cx_owner c') = true)) ->
  (ch_cap (cx_pool c') = 4096 /\ (drops PPool o = false -> ch_open (cx_pool c) = true -> ch_open (cx_pool c') = true)) ->
  held (ops ++ [o]) c' W'.
Proof.
  intros [Hw Hn Ho Hp] Hin Hn' Nx On [Oc Oo] [Pc Po]. constructor.
  - intros w X. destruct (Hw w (Hin w X)) as [A B]. rewrite Nx. split; [exact A|].
    rewrite snoc_drops. intro D. apply orb_false_iff in D as [D1 D2]. rewrite On by assumption. auto.
  - exact Hn'.
  - split; [exact Oc|]. rewrite snoc_drops. intro D. apply orb_false_iff in D as [D1 D2]. apply Oo; tauto.
  - split; [exact Pc|]. rewrite snoc_drops. intro D. apply orb_false_iff in D as [D1 D2]. apply Po; tauto.
Qed.

(** What a routed message does to the two channels. *)
Lemma route_chans c m c' o : route_message c m = (c', o) ->
  ch_cap (cx_owner c') = ch_cap (cx_owner c) /\ (ch_open (cx_owner c) = true -> ch_open (cx_owner c') = true) /\
  ch_cap (cx_pool c') = ch_cap (cx_pool c) /\ (ch_open (cx_pool c) = true -> ch_open (cx_pool c') = true).
Proof.
  assert (G : forall c id h c' r, give c id h m = (c', r) -> cx_owner c' = cx_owner c /\ cx_pool c' = cx_pool c).
  { intros c0 id h c1 r. unfold give. cbv zeta. cbn [cx_one v_listen].
    destruct (nget h (cx_one c0)) as [[|m0|]|]; intro H; apply pair_equal_spec in H as [<- _]; auto. }
  set (P := fun c0 c1 : ctx => ch_cap (cx_owner c1) = ch_cap (cx_owner c0) /\ (ch_open (cx_owner c0) = true -> ch_open (cx_owner c1) = true) /\
  ch_cap (cx_pool c1) = ch_cap (cx_pool c0) /\ (ch_open (cx_pool c0) = true -> ch_open (cx_pool c1) = true)).
  assert (O : forall c c' r, to_owner c m = (c', r) -> P c c').
  { intros c0 c1 r. unfold to_owner. destruct (try_send (cx_owner c0) (EvMessage m)) as [q|x] eqn:E; intro H;
      apply pair_equal_spec in H as [<- _]; [apply try_send_inl in E as [-> _]|]; unfold P; cbn; auto. }
  assert (L : forall c id c' r, to_listener_or_pool c id m = (c', r) -> P c c').
  { intros c0 id c1 r. unfold to_listener_or_pool. destruct (nget id (cx_listen c0)) as [h|].
    - intro H. apply G in H as [A B]. unfold P. now rewrite A, B.
    - destruct (try_send (cx_pool c0) m) as [q|x] eqn:E; intro H;
      apply pair_equal_spec in H as [<- _]; [apply try_send_inl in E as [-> _]|]; unfold P; cbn; auto. }
  change (route_message c m = (c', o) -> P c c'). unfold route_message, out_of.
  assert (Ow : (fst (to_owner c m), ROut (snd (to_owner c m))) = (c', o) -> P c c').
  { destruct (to_owner c m) as [c1 r] eqn:E. intro H; apply pair_equal_spec in H as [<- _]. exact (O _ _ _ E). }
  assert (Lp : forall c0, cx_owner c0 = cx_owner c -> cx_pool c0 = cx_pool c -> forall id,
    (fst (to_listener_or_pool c0 id m), ROut (snd (to_listener_or_pool c0 id m))) = (c', o) -> P c c').
  { intros c0 A B id. destruct (to_listener_or_pool c0 id m) as [c1 r] eqn:E.
    intro H; apply pair_equal_spec in H as [<- _]. apply L in E. unfold P in *. rewrite A, B in E. exact E. }
  destruct (m_type m); try exact Ow; try (apply Lp; reflexivity).
  - destruct (garlic_tag (m_payload m)) as [tag|];
      [|intro H; apply pair_equal_spec in H as [<- _]; unfold P; auto].
    destruct (nget tag (cx_tags c)) as [id|]; [apply Lp; reflexivity|].
    destruct (nget (m_id m) (cx_listen c)) as [h|]; [|exact Ow].
    destruct (give c (m_id m) h m) as [c1 r] eqn:E. intro H; apply pair_equal_spec in H as [<- _].
    apply G in E as [A B]. unfold P. cbn [fst]. now rewrite A, B.
  - apply Lp; [apply drop_association_owner | apply drop_association_pool].
Qed.

Lemma w_h_inj W w1 w2 : NoDup (map w_h W) -> In w1 W -> In w2 W -> w_h w1 = w_h w2 -> w1 = w2.
Proof.
  induction W as [|w W IH]; simpl; [tauto|]. intros Hn A B E.
  inversion Hn as [|? ? Hni Hd]; subst. destruct A as [<-|A], B as [<-|B]; auto.
  - exfalso. apply Hni. rewrite E. now apply in_map.
  - exfalso. apply Hni. rewrite <- E. now apply in_map.
Qed.

Lemma effect_others c p m c' r w :
  effect c p m c' r -> p <> PListener (w_h w) ->
  waiting (PListener (w_h w)) c' = waiting (PListener (w_h w)) c.
Proof.
  intros E Hp. destruct r as [|x y]; cbn [effect] in E; [|apply E].
  rewrite E. destruct (place_eqb (PListener (w_h w)) p) eqn:Q; [|apply app_nil_r].
  apply place_eqb_eq in Q. congruence.
Qed.

Lemma step_held ops c W o c' u :
  agree c W -> held ops c W -> step c o = (c', u) -> orderly_call W (o, u) ->
  held (ops ++ [o]) c' (waits_after W (o, u)).
Proof.
  intros A He. assert (He0 := He). destruct He0 as [Hw Hn [Oc Oo] [Pc Po]]. destruct o; simpl step.
  - unfold add_listener. destruct (draw_free draws (cx_listen c)) as [id|];
      intro H; apply pair_equal_spec in H as [<- <-]; intros _.
    + cbn [waits_after]. constructor.
      * intros w [<-|Hin]; cbn [w_h cx_next cx_one v_next v_one v_listen].
        -- split; [lia|]. intros _. now rewrite nget_nput_same.
        -- destruct (Hw w Hin) as [X Y]. split; [lia|]. rewrite snoc_drops. cbn [drops]. rewrite orb_false_r.
           intro D. rewrite nget_nput. destruct (N.eqb_spec (w_h w) (cx_next c)); [lia | auto].
      * simpl. constructor; [|exact Hn]. intro X. apply in_map_iff in X as (w & E & Hin).
        destruct (Hw w Hin). lia.
      * split; [exact Oc|]. rewrite snoc_drops. cbn [drops]. rewrite orb_false_r. exact Oo.
      * split; [exact Pc|]. rewrite snoc_drops. cbn [drops]. rewrite orb_false_r. exact Po.
    + apply (held_same ops _ c c W W); auto.
  - intro H; apply pair_equal_spec in H as [<- <-]. intros _. cbn [waits_after]. constructor.
    + intros x Hx. apply In_give in Hx as (w & Hin & ->). destruct (Hw w Hin) as [X Y].
      rewrite snoc_drops. cbn [drops]. rewrite orb_false_r.
      destruct (w_id w =? id); cbn [w_h]; auto.
    + assert (E : map w_h (give_tag id tag W) = map w_h W).
      { unfold give_tag. rewrite map_map. apply map_ext. intro w. now destruct (w_id w =? id). }
      now rewrite E.
    + rewrite snoc_drops. cbn [drops]. rewrite orb_false_r. auto.
    + rewrite snoc_drops. cbn [drops]. rewrite orb_false_r. auto.
  - intro H; apply pair_equal_spec in H as [<- <-]. intros _. cbn [waits_after]. unfold remove_listener.
    apply (held_same ops _ c _ W); auto.
    + intros w X. now apply In_forget in X.
    + now apply NoDup_map_forget.
    + now rewrite drop_association_next.
    + intros w _ _. now rewrite drop_association_one.
    + rewrite drop_association_owner. auto.
    + rewrite drop_association_pool. auto.
  - destruct (route_message c m) as [c1 r] eqn:E. intro H; apply pair_equal_spec in H as [<- <-].
    intros [_ Ho]. pose proof (route_fine _ _ _ _ _ A E) as F. destruct r as [r|].
    + destruct (F Ho) as [_ Ef]. pose proof (route_one _ _ _ _ E) as [N1 O1].
      destruct (route_chans _ _ _ _ E) as (C1 & C2 & C3 & C4).
      assert (Sub : forall w, In w (waits_after W (CRoute m, URoute (ROut r))) -> In w W).
      { cbn [waits_after]. destruct (answers W m) as [v|]; [|auto]. intros w X. now apply In_forget in X. }
      assert (Nd : NoDup (map w_h (waits_after W (CRoute m, URoute (ROut r))))).
      { cbn [waits_after]. destruct (answers W m); [now apply NoDup_map_forget | exact Hn]. }
      apply (held_same ops _ c _ W); auto; [|split; [congruence | auto]|split; [congruence | auto]].
      intros w X _. destruct O1 as [O1|(k & Hk & O1)]; [now rewrite O1|].
      rewrite O1, nget_nput. destruct (N.eqb_spec (w_h w) k) as [Ek|]; [|reflexivity]. exfalso.
      assert (Hp : belongs W m <> PListener (w_h w)).
      { cbn [waits_after] in X. unfold belongs. destruct (answers W m) as [v|] eqn:Av.
        - intro Q. injection Q as Q. apply In_forget in X as [X1 X2].
          assert (Hv : In v W).
          { unfold answers in Av. destruct (is_db (m_type m)); [discriminate|].
            destruct (is_garlic (m_type m)).
            - destruct (by_tag (tag_of m) W) eqn:Bt.
              + injection Av as ->. now apply by_tag_some in Bt.
              + now apply by_id_some in Av.
            - now apply by_id_some in Av. }
          apply X2. f_equal. exact (w_h_inj _ _ _ Hn X1 Hv (eq_sym Q)).
        - destruct (is_garlic (m_type m) || is_db (m_type m)); discriminate. }
      pose proof (effect_others _ _ _ _ _ w Ef Hp) as Q. cbn [waiting] in Q.
      rewrite O1, nget_nput, Ek, N.eqb_refl in Q. rewrite Hk in Q. discriminate.
    + subst c1. cbn [waits_after]. apply (held_same ops _ c c W W); auto.
  - unfold register. destruct (try_send (cx_owner c) ev) as [q|x] eqn:E;
      intro H; apply pair_equal_spec in H as [<- <-]; intros _; cbn [waits_after];
      apply (held_same ops _ c _ W W); auto.
    apply try_send_inl in E as [-> Hop]. cbn. auto.
  - unfold recv_one. destruct (nget h (cx_one c)) as [[|m|]|] eqn:Eh;
      intro H; apply pair_equal_spec in H as [<- <-]; intros _; cbn [waits_after];
      try (apply (held_same ops _ c c W W); auto).
    constructor.
    + intros w Hin. destruct (Hw w Hin) as [X Y]. split; [exact X|]. rewrite snoc_drops. cbn [drops].
      rewrite orb_false_r. intro D. specialize (Y D). cbn [cx_one v_one]. rewrite nget_nput.
      destruct (N.eqb_spec (w_h w) h) as [Eq|]; [|exact Y]. rewrite Eq, Eh in Y. discriminate.
    + exact Hn.
    + rewrite snoc_drops. cbn [drops]. rewrite orb_false_r. auto.
    + rewrite snoc_drops. cbn [drops]. rewrite orb_false_r. auto.
  - intro H; apply pair_equal_spec in H as [<- <-]. intros _. cbn [waits_after]. unfold drop_one.
    destruct (nget h (cx_one c)) as [x|] eqn:Eh; apply (held_same ops _ c _ W W); auto.
    intros w Hin D. cbn [cx_one v_one]. rewrite nget_nput. cbn [drops place_eqb] in D. now rewrite D.
  - unfold recv_owner. destruct (ch_q (cx_owner c)) as [|ev q];
      intro H; apply pair_equal_spec in H as [<- <-]; intros _; cbn [waits_after];
      apply (held_same ops _ c _ W W); auto.
  - intro H; apply pair_equal_spec in H as [<- <-]. intros _. cbn [waits_after].
    apply (held_same ops _ c _ W W); auto.
  - unfold recv_pool. destruct (ch_q (cx_pool c)) as [|m q];
      intro H; apply pair_equal_spec in H as [<- <-]; intros _; cbn [waits_after];
      apply (held_same ops _ c _ W W); auto.
  - intro H; apply pair_equal_spec in H as [<- <-]. intros _. cbn [waits_after].
    apply (held_same ops _ c _ W W); auto.
Qed.

Lemma run_held : forall ops pre c W c' tr,
  agree c W -> held pre c W -> run c ops = (c', tr) -> orderly W tr ->
  held (pre ++ ops) c' (waits W tr).
Proof.
  induction ops as [|o ops IH]; intros pre c W c' tr A He; cbn [run].
  - intro H; apply pair_equal_spec in H as [<- <-]. intros _. now rewrite app_nil_r.
  - destruct (step c o) as [c1 u] eqn:Es. destruct (run c1 ops) as [c2 us] eqn:Er.
    intro H; apply pair_equal_spec in H as [<- <-]. intros [Ho Hr].
    destruct (step_fine _ _ _ _ _ A Es Ho) as [A1 _].
    pose proof (step_held _ _ _ _ _ _ A He Es Ho) as H1.
    change (o :: ops) with ([o] ++ ops). rewrite app_assoc. cbn [waits].
    exact (IH _ _ _ _ _ A1 H1 Er Hr).
Qed.

(** ** Sizes *)
Lemma ex_len (W : list wait) : forall (m : nmap N) (f : wait -> option N),
  NoDup (nkeys m) -> NoDup (map w_id W) -> 
  (forall k, In k (nkeys m) <-> exists w, In w W /\ f w = Some k) ->
  (forall w1 w2 k, In w1 W -> In w2 W -> f w1 = Some k -> f w2 = Some k -> w1 = w2) ->
  length m = length (filter (fun w => match f w with Some _ => true | None => false end) W).
Proof.
  induction W as [|w W IH]; intros m f Nm NW Hk Hu.
  - destruct m as [|[k v] m]; [reflexivity|]. exfalso. destruct (proj1 (Hk k)) as (w & [] & _). now left.
  - inversion NW as [|? ? Hni NW']; subst. cbn [filter].
    destruct (f w) as [k|] eqn:Ef.
    + cbn [length]. rewrite <- (IH (ndel k m) f).
      * assert (In k (nkeys m)) by (apply Hk; exists w; split; [now left | exact Ef]).
        clear - Nm H. induction m as [|[x v] m IHm]; [destruct H|].
        cbn [nkeys map fst] in Nm. inversion Nm as [|? ? Hn Nm']; subst. cbn [ndel length].
        destruct (N.eqb_spec k x) as [->|Hx].
        -- f_equal. assert (E : ndel x m = m).
           { clear - Hn. induction m as [|[y z] m IHm]; [reflexivity|]. cbn in *.
             destruct (N.eqb_spec x y) as [->|]; [exfalso; apply Hn; now left|]. f_equal. apply IHm. tauto. }
           now rewrite E.
        -- cbn [length]. f_equal. apply IHm; [exact Nm'|]. destruct H as [H|H]; [cbn in H; congruence | exact H].
      * clear - Nm. induction m as [|[x v] m IHm]; [constructor|]. cbn in Nm. inversion Nm as [|? ? Hn Nm']; subst.
        cbn. destruct (k =? x); [auto|]. cbn. constructor; [|auto]. intro X.
        fold (nkeys (ndel k m)) in X. apply In_nkeys_ndel in X as [_ X]. exact (Hn X).
      * exact NW'.
      * intro j. rewrite In_nkeys_ndel, Hk. split.
        -- intros (Hj & x & [<-|Hx] & Ex); [congruence|]. exists x. auto.
        -- intros (x & Hx & Ex). split; [|exists x; split; [now right | exact Ex]].
           intros ->. assert (w = x) as -> by (apply (Hu _ _ k); [now left | now right | exact Ef | exact Ex]).
           apply Hni. now apply in_map.
      * intros w1 w2 j A B. apply Hu; now right.
    + apply IH; auto.
      * intro j. rewrite Hk. split; intros (x & Hx & Ex).
        -- destruct Hx as [<-|Hx]; [congruence|]. exists x. auto.
        -- exists x. split; [now right | exact Ex].
      * intros w1 w2 j A B. apply Hu; now right.
Qed.
