(** Proofs about a tunnel pool's context. *)
From Coq Require Import List NArith Bool Lia Arith ZArith ZifyBool ZifyNat ZifyN.
From Verif Require Import ListUtil Bytes NMap I2npModel RouteModel RouteProofs PctxModel PctxSpec.
Import ListNotations.
Open Scope N_scope.

(** ** The register of waits *)
Lemma by_id_some id W w : by_id id W = Some w -> In w W /\ w_id w = id.
Proof.
  unfold by_id. intro H. apply find_some in H as [A B]. apply N.eqb_eq in B. auto.
Qed.
Lemma by_tag_some t W w : by_tag t W = Some w -> In w W /\ w_tag w = Some t.
Proof.
  unfold by_tag. intro H. apply find_some in H as [A B]. split; [exact A|].
  unfold tagged in B. destruct (w_tag w) as [x|]; [|discriminate]. apply N.eqb_eq in B. now subst.
Qed.
Lemma by_tag_none t W w : by_tag t W = None -> In w W -> w_tag w <> Some t.
Proof.
  intros H Hin E. pose proof (find_none _ _ H _ Hin) as X. unfold tagged in X. rewrite E in X.
  rewrite N.eqb_refl in X. discriminate.
Qed.
Lemma by_id_in W w : NoDup (map w_id W) -> In w W -> by_id (w_id w) W = Some w.
Proof.
  induction W as [|x W IH]; simpl; [tauto|]. intros Hn Hin.
  inversion Hn as [|? ? Hni Hn']; subst. unfold by_id. simpl.
  destruct Hin as [->|Hin]; [now rewrite N.eqb_refl|].
  destruct (N.eqb_spec (w_id x) (w_id w)) as [E|E].
  - exfalso. apply Hni. rewrite E. now apply in_map.
  - exact (IH Hn' Hin).
Qed.

Lemma by_id_forget id j W : by_id j (forget id W) = if j =? id then None else by_id j W.
Proof.
  unfold by_id, forget. induction W as [|w W IH]; simpl; [now destruct (j =? id)|].
  destruct (N.eqb_spec (w_id w) id) as [E|E]; simpl.
  - rewrite IH. destruct (N.eqb_spec j id) as [->|Hj]; auto.
    destruct (N.eqb_spec (w_id w) j); [congruence | auto].
  - rewrite IH. destruct (N.eqb_spec j id) as [->|Hj]; auto.
    destruct (N.eqb_spec (w_id w) id); [congruence | auto].
Qed.

(** Tags are not shared. *)
Definition tags_ok (W : list wait) : Prop :=
  forall w1 w2 t, In w1 W -> In w2 W -> w_tag w1 = Some t -> w_tag w2 = Some t -> w1 = w2.

Lemma by_tag_in W w t : tags_ok W -> In w W -> w_tag w = Some t -> by_tag t W = Some w.
Proof.
  intros Ht Hin E. destruct (by_tag t W) as [w'|] eqn:B.
  - apply by_tag_some in B as [A C]. f_equal. exact (Ht _ _ _ A Hin C E).
  - exfalso. exact (by_tag_none _ _ _ B Hin E).
Qed.

Lemma In_forget id w W : In w (forget id W) <-> In w W /\ w_id w <> id.
Proof.
  unfold forget. rewrite filter_In. split; intros [A B]; split; auto.
  - destruct (N.eqb_spec (w_id w) id); [discriminate | auto].
  - destruct (N.eqb_spec (w_id w) id); [congruence | auto].
Qed.
Lemma NoDup_forget id W : NoDup (map w_id W) -> NoDup (map w_id (forget id W)).
Proof.
  unfold forget. induction W as [|w W IH]; simpl; [auto|]. intro H.
  inversion H as [|? ? Hn Hd]; subst. destruct (negb (w_id w =? id)); simpl; [|auto].
  constructor; [|auto]. intro X. apply Hn. apply in_map_iff in X as (y & E & Y).
  apply filter_In in Y as [Y _]. rewrite <- E. now apply in_map.
Qed.
Lemma tags_forget id W : tags_ok W -> tags_ok (forget id W).
Proof. intros H w1 w2 t A B. apply In_forget in A as [A _]. apply In_forget in B as [B _]. eauto. Qed.

Lemma by_tag_forget id t W :
  NoDup (map w_id W) -> tags_ok W ->
  by_tag t (forget id W) =
  match by_tag t W with Some w => if w_id w =? id then None else Some w | None => None end.
Proof.
  intros Hn Ht. destruct (by_tag t W) as [w|] eqn:B.
  - apply by_tag_some in B as [Hin E]. destruct (N.eqb_spec (w_id w) id) as [Hi|Hi].
    + destruct (by_tag t (forget id W)) as [w'|] eqn:B'; [|reflexivity].
      apply by_tag_some in B' as [A C]. apply In_forget in A as [A D].
      rewrite (Ht _ _ _ A Hin C E) in D. contradiction.
    + apply by_tag_in; [now apply tags_forget| apply In_forget; auto | exact E].
  - destruct (by_tag t (forget id W)) as [w'|] eqn:B'; [|reflexivity].
    apply by_tag_some in B' as [A C]. apply In_forget in A as [A D].
    exfalso. exact (by_tag_none _ _ _ B A C).
Qed.

Lemma give_tag_ids id t W : map w_id (give_tag id t W) = map w_id W.
Proof.
  unfold give_tag. rewrite map_map. apply map_ext. intro w. now destruct (w_id w =? id).
Qed.
Lemma by_id_give id t j W :
  by_id j (give_tag id t W) =
  match by_id j W with
  | Some w => Some (if j =? id then mkWait (w_id w) (w_h w) (Some t) else w)
  | None => None
  end.
Proof.
  unfold by_id, give_tag. induction W as [|w W IH]; simpl; [reflexivity|].
  destruct (N.eqb_spec (w_id w) id) as [E|E]; simpl.
  - destruct (N.eqb_spec (w_id w) j) as [F|F]; [|exact IH].
    rewrite <- F, E, N.eqb_refl. reflexivity.
  - destruct (N.eqb_spec (w_id w) j) as [F|F]; [|exact IH].
    destruct (N.eqb_spec j id); [congruence | reflexivity].
Qed.
Lemma In_give id t x W :
  In x (give_tag id t W) -> exists w, In w W /\
    x = if w_id w =? id then mkWait (w_id w) (w_h w) (Some t) else w.
Proof. unfold give_tag. rewrite in_map_iff. intros (w & <- & H). exists w. auto. Qed.

Lemma tags_give id t W :
  NoDup (map w_id W) -> tags_ok W -> by_tag t W = None -> tags_ok (give_tag id t W).
Proof.
  intros Hn Ht Hb x y s X Y Ex Ey.
  apply In_give in X as (w1 & A & ->). apply In_give in Y as (w2 & B & ->).
  destruct (N.eqb_spec (w_id w1) id) as [E1|E1]; destruct (N.eqb_spec (w_id w2) id) as [E2|E2];
    cbn in Ex, Ey.
  - pose proof (by_id_in _ _ Hn A) as P. pose proof (by_id_in _ _ Hn B) as Q.
    rewrite E1 in P. rewrite E2 in Q. assert (w1 = w2) as -> by congruence. reflexivity.
  - injection Ex as ->. exfalso. exact (by_tag_none _ _ _ Hb B Ey).
  - injection Ey as ->. exfalso. exact (by_tag_none _ _ _ Hb A Ex).
  - eauto.
Qed.

Lemma by_tag_give id t s W w :
  NoDup (map w_id W) -> tags_ok W -> by_tag t W = None -> by_id id W = Some w -> w_tag w = None ->
  by_tag s (give_tag id t W) = if s =? t then Some (mkWait (w_id w) (w_h w) (Some t)) else by_tag s W.
Proof.
  intros Hn Ht Hb Hi Hw. pose proof (tags_give id t W Hn Ht Hb) as Hg.
  apply by_id_some in Hi as [Hin E].
  destruct (N.eqb_spec s t) as [->|Hs].
  - apply by_tag_in; [exact Hg| |reflexivity]. unfold give_tag. apply in_map_iff. exists w.
    rewrite E, N.eqb_refl. auto.
  - destruct (by_tag s W) as [x|] eqn:B.
    + apply by_tag_some in B as [Bi Be]. apply by_tag_in; [exact Hg| |exact Be].
      unfold give_tag. apply in_map_iff. exists x. split; [|exact Bi].
      destruct (N.eqb_spec (w_id x) id) as [Ex|]; [|reflexivity].
      pose proof (by_id_in _ _ Hn Bi) as P. pose proof (by_id_in _ _ Hn Hin) as Q.
      rewrite Ex in P. rewrite E in Q. congruence.
    + destruct (by_tag s (give_tag id t W)) as [x|] eqn:B'; [|reflexivity]. exfalso.
      apply by_tag_some in B' as [Bi Be]. apply In_give in Bi as (v & Bv & ->).
      destruct (w_id v =? id).
      * cbn in Be. congruence.
      * exact (by_tag_none _ _ _ B Bv Be).
Qed.

(** ** The maps agree with the register *)
Record agree (c : ctx) (W : list wait) : Prop := mkAgree {
  ag_l : forall id, nget id (cx_listen c) = option_map w_h (by_id id W);
  ag_t : forall t, nget t (cx_tags c) = option_map w_id (by_tag t W);
  ag_i : forall id, nget id (cx_ids c) = match by_id id W with Some w => w_tag w | None => None end;
  ag_n : NoDup (map w_id W);
  ag_u : tags_ok W;
  ag_o : forall h, cx_next c <= h -> nget h (cx_one c) = None }.

Lemma agree_new : agree cx_new [].
Proof. constructor; try reflexivity; [constructor | intros ? ? ? []]. Qed.

(** Only the listeners' maps and the waits matter. *)
Lemma agree_ext c c' W :
  cx_listen c' = cx_listen c -> cx_tags c' = cx_tags c -> cx_ids c' = cx_ids c ->
  (forall h, cx_next c' <= h -> nget h (cx_one c') = None) -> agree c W -> agree c' W.
Proof. intros A B C D [L T I N' U O]. constructor; rewrite ?A, ?B, ?C; auto. Qed.

(** Ending the wait for [id], with its association. *)
Lemma drop_association_listen c id : cx_listen (drop_association c id) = cx_listen c.
Proof. unfold drop_association. now destruct (nget id (cx_ids c)). Qed.
Lemma drop_association_one c id : cx_one (drop_association c id) = cx_one c.
Proof. unfold drop_association. now destruct (nget id (cx_ids c)). Qed.
Lemma drop_association_owner c id : cx_owner (drop_association c id) = cx_owner c.
Proof. unfold drop_association. now destruct (nget id (cx_ids c)). Qed.
Lemma drop_association_pool c id : cx_pool (drop_association c id) = cx_pool c.
Proof. unfold drop_association. now destruct (nget id (cx_ids c)). Qed.
Lemma drop_association_next c id : cx_next (drop_association c id) = cx_next c.
Proof. unfold drop_association. now destruct (nget id (cx_ids c)). Qed.

Lemma drop_association_tags c W id t : agree c W ->
  nget t (cx_tags (drop_association c id)) =
  match by_tag t W with Some w => if w_id w =? id then None else Some (w_id w) | None => None end.
Proof.
  intros [L T I Nd U O]. unfold drop_association. destruct (nget id (cx_ids c)) as [tag|] eqn:E.
  - cbn [cx_tags v_tags v_ids]. rewrite nget_ndel, T. rewrite I in E.
    destruct (by_id id W) as [w|] eqn:Bi; [|discriminate].
    apply by_id_some in Bi as [Hin Ei]. pose proof (by_tag_in _ _ _ U Hin E) as Bt.
    destruct (N.eqb_spec t tag) as [->|Ht].
    + rewrite Bt, Ei, N.eqb_refl. reflexivity.
    + destruct (by_tag t W) as [x|] eqn:B; [|reflexivity]. apply by_tag_some in B as [Bx Be].
      destruct (N.eqb_spec (w_id x) id) as [Ex|]; [|reflexivity]. exfalso.
      pose proof (by_id_in _ _ Nd Bx) as P. pose proof (by_id_in _ _ Nd Hin) as Q.
      rewrite Ex in P. rewrite Ei in Q. congruence.
  - rewrite T. destruct (by_tag t W) as [x|] eqn:B; [|reflexivity]. apply by_tag_some in B as [Bx Be].
    destruct (N.eqb_spec (w_id x) id) as [Ex|]; [|reflexivity]. exfalso.
    rewrite I in E. rewrite <- Ex, (by_id_in _ _ Nd Bx) in E. congruence.
Qed.
Lemma drop_association_ids c W id j : agree c W ->
  nget j (cx_ids (drop_association c id)) =
  if j =? id then None else match by_id j W with Some w => w_tag w | None => None end.
Proof.
  intros [L T I Nd U O]. unfold drop_association. destruct (nget id (cx_ids c)) as [tag|] eqn:E.
  - cbn [cx_ids v_tags v_ids]. rewrite nget_ndel, I. reflexivity.
  - rewrite I. destruct (N.eqb_spec j id) as [->|]; [|reflexivity]. now rewrite <- I.
Qed.

Lemma agree_remove c W id : agree c W -> agree (remove_listener c id) (forget id W).
Proof.
  intros A. unfold remove_listener. set (c1 := v_listen c (ndel id (cx_listen c))).
  assert (T1 : forall t, nget t (cx_tags (drop_association c1 id)) =
                         nget t (cx_tags (drop_association c id))).
  { intro t. unfold drop_association, c1. cbn [cx_ids v_listen cx_tags].
    now destruct (nget id (cx_ids c)). }
  assert (I1 : forall t, nget t (cx_ids (drop_association c1 id)) =
                         nget t (cx_ids (drop_association c id))).
  { intro t. unfold drop_association, c1. cbn [cx_ids v_listen cx_tags].
    now destruct (nget id (cx_ids c)). }
  constructor.
  - intro j. rewrite drop_association_listen. unfold c1. cbn [cx_listen v_listen].
    rewrite nget_ndel, (ag_l _ _ A), by_id_forget. now destruct (j =? id).
  - intro t. rewrite T1, (drop_association_tags _ _ _ _ A), by_tag_forget by (apply A).
    destruct (by_tag t W) as [w|]; [|reflexivity]. now destruct (w_id w =? id).
  - intro j. rewrite I1, (drop_association_ids _ _ _ _ A), by_id_forget. now destruct (j =? id).
  - apply NoDup_forget, A.
  - apply tags_forget, A.
  - intros h Hh. rewrite drop_association_one, drop_association_next in *. apply (ag_o _ _ A). exact Hh.
Qed.

(** ** Handing a message over *)
Lemma place_eqb_eq a b : place_eqb a b = true <-> a = b.
Proof.
  destruct a, b; simpl; split; intro H; try discriminate; try reflexivity;
    try (apply N.eqb_eq in H; congruence); injection H as ->; apply N.eqb_refl.
Qed.

Lemma forget_absent id W : by_id id W = None -> forget id W = W.
Proof.
  unfold by_id, forget. induction W as [|w W IH]; simpl; [auto|].
  destruct (w_id w =? id); simpl; [discriminate|]. intro H. now rewrite (IH H).
Qed.

(** What a call leaves: the register, and what waits where. *)
Definition effect (c : ctx) (p : place) (m : message) (c' : ctx) (r : result) : Prop :=
  match r with
  | ROk => forall q, waiting q c' = waiting q c ++ (if place_eqb q p then [EvMessage m] else [])
  | RErr _ m' => m' = m /\ forall q, waiting q c' = waiting q c
  end.

Lemma give_effect c id h m c' r :
  give c id h m = (c', r) -> effect c (PListener h) m c' r /\
  cx_listen c' = ndel id (cx_listen c) /\ cx_tags c' = cx_tags c /\ cx_ids c' = cx_ids c /\
  cx_next c' = cx_next c /\
  (forall k, nget k (cx_one c) = None -> nget k (cx_one c') = None).
Proof.
  unfold give. cbv zeta. cbn [cx_one v_listen].
  destruct (nget h (cx_one c)) as [[|m0|]|] eqn:Eh; intro H; apply pair_equal_spec in H as [<- <-].
  2,3,4: (split; [split; [reflexivity|]; intros [k| |]; reflexivity|]);
    (split; [reflexivity|]); (split; [reflexivity|]); (split; [reflexivity|]); (split; [reflexivity|]); auto.
  split.
  - intros [k| |]; cbn [waiting cx_one v_one v_listen cx_owner cx_pool place_eqb]; [|now rewrite app_nil_r|now rewrite app_nil_r].
    rewrite nget_nput. destruct (N.eqb_spec k h) as [->|Hk]; [now rewrite Eh | now rewrite app_nil_r].
  - split; [reflexivity|]. split; [reflexivity|]. split; [reflexivity|]. split; [reflexivity|].
    intros k Hk. cbn [cx_one v_one v_listen]. rewrite nget_nput.
    destruct (N.eqb_spec k h) as [->|]; [congruence | exact Hk].
Qed.

Lemma to_owner_effect c m c' r :
  to_owner c m = (c', r) -> effect c POwner m c' r /\
  cx_listen c' = cx_listen c /\ cx_tags c' = cx_tags c /\ cx_ids c' = cx_ids c /\
  cx_next c' = cx_next c /\ cx_one c' = cx_one c.
Proof.
  unfold to_owner. destruct (try_send (cx_owner c) (EvMessage m)) as [q|x] eqn:E;
    intro H; apply pair_equal_spec in H as [<- <-].
  - apply try_send_inl in E as [-> _]. split; [|auto 6].
    intros [k| |]; cbn [waiting cx_one v_owner cx_owner cx_pool place_eqb ch_q]; now rewrite ?app_nil_r.
  - split; [split; [reflexivity|]; auto | auto 6].
Qed.

Lemma listener_or_pool_effect c id m c' r :
  to_listener_or_pool c id m = (c', r) ->
  effect c (match nget id (cx_listen c) with Some h => PListener h | None => PPool end) m c' r /\
  (forall j, nget j (cx_listen c') = if j =? id then None else nget j (cx_listen c)) /\
  cx_tags c' = cx_tags c /\ cx_ids c' = cx_ids c /\
  cx_next c' = cx_next c /\
  (forall k, nget k (cx_one c) = None -> nget k (cx_one c') = None).
Proof.
  unfold to_listener_or_pool. destruct (nget id (cx_listen c)) as [h|] eqn:E.
  - intro H. apply give_effect in H as (A & B & C & D & F & G). split; [exact A|].
    split; [intro j; now rewrite B, nget_ndel|]. auto.
  - assert (L : forall j, nget j (cx_listen c) = if j =? id then None else nget j (cx_listen c)).
    { intro j. destruct (N.eqb_spec j id) as [->|]; auto. }
    destruct (try_send (cx_pool c) m) as [q|x] eqn:Es; intro H; apply pair_equal_spec in H as [<- <-].
    + apply try_send_inl in Es as [-> _]. split; [|split; [exact L|auto]].
      intros [k| |]; cbn [waiting cx_one v_pool cx_owner cx_pool place_eqb ch_q];
        rewrite ?map_app; simpl; now rewrite ?app_nil_r.
    + split; [split; [reflexivity|]; auto | split; [exact L|auto]].
Qed.

Lemma agree_like_removed c0 c c' W id :
  agree c W ->
  (forall j, nget j (cx_listen c') = if j =? id then None else nget j (cx_listen c)) ->
  cx_tags c' = cx_tags c0 -> cx_ids c' = cx_ids c0 ->
  (forall t, nget t (cx_tags c0) =
     match by_tag t W with Some w => if w_id w =? id then None else Some (w_id w) | None => None end) ->
  (forall j, nget j (cx_ids c0) =
     if j =? id then None else match by_id j W with Some w => w_tag w | None => None end) ->
  (forall k, cx_next c' <= k -> nget k (cx_one c') = None) ->
  agree c' (forget id W).
Proof.
  intros A L T I Ht Hi O. constructor.
  - intro j. rewrite L, by_id_forget, (ag_l _ _ A). now destruct (j =? id).
  - intro t. rewrite T, Ht, by_tag_forget by (apply A).
    destruct (by_tag t W) as [w|]; [|reflexivity]. now destruct (w_id w =? id).
  - intro j. rewrite I, Hi, by_id_forget. now destruct (j =? id).
  - apply NoDup_forget, A.
  - apply tags_forget, A.
  - exact O.
Qed.

(** With no tag there is nothing else to remove. *)
Lemma untagged_tags c W id : agree c W -> nget id (cx_ids c) = None ->
  (forall t, nget t (cx_tags c) =
     match by_tag t W with Some w => if w_id w =? id then None else Some (w_id w) | None => None end) /\
  (forall j, nget j (cx_ids c) =
     if j =? id then None else match by_id j W with Some w => w_tag w | None => None end).
Proof.
  intros A E.
  assert (Hd : drop_association c id = c) by (unfold drop_association; now rewrite E).
  split; intro x.
  - rewrite <- Hd at 1. now apply drop_association_tags.
  - rewrite <- Hd at 1. now apply drop_association_ids.
Qed.

Lemma route_fine c W m c' o :
  agree c W -> route_message c m = (c', o) ->
  match o with
  | RPanic => c' = c
  | ROut r =>
      answer_call W (CRoute m, URoute (ROut r)) ->
      agree c' (waits_after W (CRoute m, URoute (ROut r))) /\ effect c (belongs W m) m c' r
  end.
Proof.
  intro A. unfold route_message.
  assert (Howner : is_db (m_type m) = true -> out_of (to_owner c m) = (c', o) ->
    match o with
    | RPanic => c' = c
    | ROut r => answer_call W (CRoute m, URoute (ROut r)) ->
        agree c' (waits_after W (CRoute m, URoute (ROut r))) /\ effect c (belongs W m) m c' r
    end).
  { intros Hdb H. unfold out_of in H. destruct (to_owner c m) as [c1 r] eqn:E.
    apply pair_equal_spec in H as [<- <-]. intros _. apply to_owner_effect in E as (Ef & L & T & I & Nx & On).
    unfold belongs, waits_after, answers. rewrite Hdb, orb_true_r. split; [|exact Ef].
    apply (agree_ext c); auto. intros h Hh. cbn [fst] in *. rewrite On. apply (ag_o _ _ A). rewrite <- Nx. exact Hh. }
  assert (Hplain : is_db (m_type m) = false -> is_garlic (m_type m) = false ->
    is_reply (m_type m) = false -> out_of (to_listener_or_pool c (m_id m) m) = (c', o) ->
    match o with
    | RPanic => c' = c
    | ROut r => answer_call W (CRoute m, URoute (ROut r)) ->
        agree c' (waits_after W (CRoute m, URoute (ROut r))) /\ effect c (belongs W m) m c' r
    end).
  { intros Hdb Hg Hr H. unfold out_of in H. destruct (to_listener_or_pool c (m_id m) m) as [c1 r] eqn:E.
    apply pair_equal_spec in H as [<- <-]. cbn [fst snd].
    apply listener_or_pool_effect in E as (Ef & L & T & I & Nx & On).
    unfold answer_call, belongs, waits_after, answers. rewrite Hdb, Hg, Hr. cbn [orb].
    assert (O' : forall k, cx_next c1 <= k -> nget k (cx_one c1) = None).
    { intros k Hk. apply On, (ag_o _ _ A). rewrite <- Nx. exact Hk. }
    rewrite (ag_l _ _ A) in Ef. intro Ho.
    destruct (by_id (m_id m) W) as [w|] eqn:Bi; cbn [option_map] in Ef.
    - split; [|exact Ef]. destruct (by_id_some _ _ _ Bi) as [Hin Eid]. rewrite Eid.
      assert (Ht : w_tag w = None).
      { destruct (w_tag w) as [t|]; [|reflexivity]. destruct Ho as [Ho|[Ho _]]; discriminate. }
      assert (Hi : nget (m_id m) (cx_ids c) = None) by (rewrite (ag_i _ _ A), Bi; exact Ht).
      destruct (untagged_tags _ _ _ A Hi) as [P Q].
      exact (agree_like_removed c c c1 W (m_id m) A L T I P Q O').
    - split; [|exact Ef]. apply (agree_like_removed c c c1 W (m_id m) A L T I) in O'.
      + rewrite forget_absent in O'; assumption.
      + apply untagged_tags; [exact A|]. now rewrite (ag_i _ _ A), Bi.
      + apply untagged_tags; [exact A|]. now rewrite (ag_i _ _ A), Bi. }
  destruct (m_type m) eqn:Ty; try (intro H; apply Howner; [reflexivity | exact H]);
    try (intro H; apply Hplain; [reflexivity | reflexivity | reflexivity | exact H]).
  - (* garlic *)
    destruct (garlic_tag (m_payload m)) as [tag|] eqn:Eg;
      [|intro H; apply pair_equal_spec in H as [<- <-]; reflexivity].
    assert (tag = tag_of m) as ->.
    { unfold garlic_tag in Eg. destruct (_ <? 12); [discriminate|]. injection Eg as <-. reflexivity. }
    rewrite (ag_t _ _ A). destruct (by_tag (tag_of m) W) as [w|] eqn:Bt; cbn [option_map].
    + cbv zeta. unfold out_of.
      set (c0 := v_ids (v_tags c (ndel (tag_of m) (cx_tags c)))
                       (ndel (w_id w) (cx_ids (v_tags c (ndel (tag_of m) (cx_tags c)))))).
      destruct (to_listener_or_pool c0 (w_id w) m) as [c1 r] eqn:E.
      intro H; apply pair_equal_spec in H as [<- <-]. intros _. cbn [fst snd].
      apply listener_or_pool_effect in E as (Ef & L & T & I & Nx & On).
      destruct (by_tag_some _ _ _ Bt) as [Hin Et]. pose proof (by_id_in _ _ (ag_n _ _ A) Hin) as Bi.
      assert (O' : forall k, cx_next c1 <= k -> nget k (cx_one c1) = None).
      { intros k Hk. apply On. unfold c0. cbn [cx_one v_ids v_tags]. apply (ag_o _ _ A).
        rewrite Nx in Hk. exact Hk. }
      assert (Hd : drop_association c (w_id w) = v_tags (v_ids c (ndel (w_id w) (cx_ids c)))
                                                     (ndel (tag_of m) (cx_tags c))).
      { unfold drop_association. rewrite (ag_i _ _ A), Bi, Et. reflexivity. }
      unfold waits_after, belongs, answers. rewrite Ty. cbn [is_db is_garlic]. rewrite Bt. split.
      * apply (agree_like_removed c0 c c1 W (w_id w) A); auto.
        -- intro t. rewrite <- (drop_association_tags _ _ (w_id w) t A), Hd. reflexivity.
        -- intro j. rewrite <- (drop_association_ids _ _ (w_id w) j A), Hd. reflexivity.
      * assert (El : nget (w_id w) (cx_listen c0) = Some (w_h w)).
        { unfold c0. cbn [cx_listen v_ids v_tags]. now rewrite (ag_l _ _ A), Bi. }
        rewrite El in Ef.
        assert (Hw : forall q, waiting q c0 = waiting q c) by (intros [k| |]; reflexivity).
        destruct r as [|e m']; cbn [effect] in *; [intro q; now rewrite <- Hw|].
        destruct Ef as [X Y]. split; [exact X|]. intro q. now rewrite <- Hw.
    + rewrite (ag_l _ _ A). destruct (by_id (m_id m) W) as [w|] eqn:Bi; cbn [option_map].
      * unfold out_of. destruct (give c (m_id m) (w_h w) m) as [c1 r] eqn:E.
        intro H; apply pair_equal_spec in H as [<- <-]. cbn [fst snd].
        apply give_effect in E as (Ef & L & T & I & Nx & On).
        unfold answer_call, waits_after, belongs, answers. rewrite Ty. cbn [is_db is_garlic is_reply].
        rewrite Bt, Bi. intro Ho. destruct (by_id_some _ _ _ Bi) as [Hin Eid].
        assert (Ht : w_tag w = None).
        { destruct (w_tag w) as [t|] eqn:Et; [|reflexivity]. destruct Ho as [Ho|[_ Ho]]; [discriminate|].
          exfalso. subst t. exact (by_tag_none _ _ _ Bt Hin Et). }
        assert (Hi : nget (m_id m) (cx_ids c) = None) by (rewrite (ag_i _ _ A), Bi; exact Ht).
        destruct (untagged_tags _ _ _ A Hi) as [P Q]. rewrite Eid. split; [|exact Ef].
        apply (agree_like_removed c c c1 W (m_id m) A); auto.
        -- intro j. now rewrite L, nget_ndel.
        -- intros k Hk. apply On, (ag_o _ _ A). rewrite <- Nx. exact Hk.
      * unfold out_of. destruct (to_owner c m) as [c1 r] eqn:E.
        intro H; apply pair_equal_spec in H as [<- <-]. cbn [fst snd].
        apply to_owner_effect in E as (Ef & L & T & I & Nx & On).
        unfold answer_call, waits_after, belongs, answers. rewrite Ty. cbn [is_db is_garlic is_reply orb].
        rewrite Bt, Bi. intros _. split; [|exact Ef]. apply (agree_ext c); auto.
        intros h Hh. rewrite On. apply (ag_o _ _ A). rewrite <- Nx. exact Hh.
  - (* build reply *)
    unfold out_of. set (c0 := drop_association c (m_id m)).
    destruct (to_listener_or_pool c0 (m_id m) m) as [c1 r] eqn:E.
    intro H; apply pair_equal_spec in H as [<- <-]. intros _. cbn [fst snd].
    apply listener_or_pool_effect in E as (Ef & L & T & I & Nx & On).
    assert (O' : forall k, cx_next c1 <= k -> nget k (cx_one c1) = None).
    { intros k Hk. apply On. unfold c0. rewrite drop_association_one. apply (ag_o _ _ A).
      rewrite Nx in Hk. unfold c0 in Hk. rewrite drop_association_next in Hk. exact Hk. }
    assert (L' : forall j, nget j (cx_listen c1) = if j =? m_id m then None else nget j (cx_listen c)).
    { intro j. rewrite L. unfold c0. now rewrite drop_association_listen. }
    assert (Ag : agree c1 (forget (m_id m) W)).
    { apply (agree_like_removed c0 c c1 W (m_id m) A L' T I).
      - intro t. now apply drop_association_tags.
      - intro j. now apply drop_association_ids.
      - exact O'. }
    assert (Hw : forall q, waiting q c0 = waiting q c).
    { intros [k| |]; unfold c0; cbn [waiting];
        rewrite ?drop_association_one, ?drop_association_owner, ?drop_association_pool; reflexivity. }
    assert (Hf : effect c (match nget (m_id m) (cx_listen c) with Some h => PListener h | None => PPool end) m c1 r).
    { unfold c0 in Ef at 2. rewrite drop_association_listen in Ef.
      destruct r as [|e m']; cbn [effect] in *; [intro q; now rewrite <- Hw|].
      destruct Ef as [X Y]. split; [exact X|]. intro q. now rewrite <- Hw. }
    rewrite (ag_l _ _ A) in Hf.
    unfold waits_after, belongs, answers. rewrite Ty. cbn [is_db is_garlic orb].
    destruct (by_id (m_id m) W) as [w|] eqn:Bi; cbn [option_map] in Hf.
    + destruct (by_id_some _ _ _ Bi) as [_ Eid]. rewrite Eid. auto.
    + rewrite forget_absent in Ag by exact Bi. auto.
Qed.

(** ** One call *)
Lemma step_fine c W o c' u :
  agree c W -> step c o = (c', u) -> orderly_call W (o, u) ->
  agree c' (waits_after W (o, u)) /\
  (forall p, drops p o = false ->
     waiting p c ++ meant_for p (accepts W (o, u)) = gets p (o, u) ++ waiting p c').
Proof.
  intros A. assert (A0 := A). destruct A0 as [AL AT AI AN AU AO]. destruct o; simpl step.
  - (* CAdd *)
    unfold add_listener. destruct (draw_free draws (cx_listen c)) as [id|] eqn:E;
      intro H; apply pair_equal_spec in H as [<- <-]; intros _.
    + apply draw_free_spec in E as [E _]. rewrite AL in E.
      destruct (by_id id W) as [|] eqn:Bi; [discriminate|]. split.
      * constructor.
        -- intro j. cbn [cx_listen v_next v_one v_listen waits_after]. rewrite nget_nput.
           unfold by_id. simpl. rewrite (N.eqb_sym id j). destruct (j =? id); [reflexivity|]. apply AL.
        -- intro t. cbn [cx_tags v_next v_one v_listen waits_after]. unfold by_tag. simpl. apply AT.
        -- intro j. cbn [cx_ids v_next v_one v_listen waits_after]. rewrite AI. unfold by_id at 2. simpl.
           destruct (N.eqb_spec id j) as [->|]; [|reflexivity]. now rewrite Bi.
        -- simpl. constructor; [|exact AN]. intro X. apply in_map_iff in X as (w & Ew & Hw).
           pose proof (by_id_in _ _ AN Hw) as P. rewrite Ew in P. congruence.
        -- intros w1 w2 t [<-|X] [<-|Y]; cbn [w_tag]; try discriminate. now apply AU.
        -- intros h Hh. cbn [cx_one cx_next v_next v_one v_listen] in *. rewrite nget_nput.
           destruct (N.eqb_spec h (cx_next c)); [lia|]. apply AO. lia.
      * intros p _. simpl. rewrite app_nil_r. destruct p as [k| |]; cbn [waiting cx_one v_next v_one v_listen cx_owner cx_pool]; auto.
        rewrite nget_nput. destruct (N.eqb_spec k (cx_next c)) as [->|]; [|reflexivity].
        now rewrite (AO _ (N.le_refl _)).
    + split; [exact A|]. intros p _. simpl. now rewrite app_nil_r.
  - (* CTag *)
    intro H; apply pair_equal_spec in H as [<- <-]. intros [(Hb & w & Bi & Hw) _]. split.
    + constructor; cbn [cx_listen cx_tags cx_ids cx_one cx_next add_garlic_listener v_ids v_tags waits_after].
      * intro j. rewrite AL, by_id_give. destruct (by_id j W) as [x|]; [|reflexivity].
        simpl. now destruct (j =? id).
      * intro t. rewrite nget_nput, (by_tag_give id tag t W w AN AU Hb Bi Hw).
        destruct (t =? tag); [|apply AT]. cbn. now destruct (by_id_some _ _ _ Bi) as [_ ->].
      * intro j. rewrite nget_nput, by_id_give. destruct (N.eqb_spec j id) as [->|].
        -- now rewrite Bi.
        -- rewrite AI. now destruct (by_id j W).
      * now rewrite give_tag_ids.
      * now apply tags_give.
      * exact AO.
    + intros p _. simpl. rewrite app_nil_r. now destruct p.
  - (* CRemove *)
    intro H; apply pair_equal_spec in H as [<- <-]. intros _. split; [now apply agree_remove|].
    intros p _. simpl. rewrite app_nil_r. unfold remove_listener.
    destruct p; cbn [waiting]; now rewrite ?drop_association_one, ?drop_association_owner, ?drop_association_pool.
  - (* CRoute *)
    destruct (route_message c m) as [c1 r] eqn:E. intro H; apply pair_equal_spec in H as [<- <-].
    pose proof (route_fine _ _ _ _ _ A E) as F. destruct r as [r|].
    + intros [_ Ho]. destruct (F Ho) as [Ag Ef]. split; [exact Ag|]. intros p _. cbn [gets app].
      unfold accepts. destruct r as [|e m']; cbn [effect] in Ef.
      * rewrite Ef. unfold meant_for. cbn [filter fst]. destruct (place_eqb p (belongs W m)); reflexivity.
      * destruct Ef as [_ Ef]. rewrite Ef. simpl. now rewrite app_nil_r.
    + intros _. subst c1. split; [exact A|]. intros p _. simpl. now rewrite app_nil_r.
  - (* CEvent *)
    unfold register. destruct (try_send (cx_owner c) ev) as [q|x] eqn:E;
      intro H; apply pair_equal_spec in H as [<- <-]; intros _.
    + apply try_send_inl in E as [-> _]. split; [constructor; assumption|].
      intros p _. unfold accepts, meant_for. cbn [filter fst gets app].
      destruct p; cbn [place_eqb map snd waiting cx_one v_owner cx_owner cx_pool ch_q]; now rewrite ?app_nil_r.
    + split; [exact A|]. intros p _. simpl. now rewrite app_nil_r.
  - (* CRecv *)
    unfold recv_one. destruct (nget h (cx_one c)) as [[|m|]|] eqn:Eh;
      intro H; apply pair_equal_spec in H as [<- <-]; intros _;
      try (split; [exact A|]; intros p _; simpl; now rewrite app_nil_r).
    split.
    + constructor; auto. intros k Hk. cbn [cx_one cx_next v_one] in *. rewrite nget_nput.
      destruct (N.eqb_spec k h) as [->|]; [rewrite (AO h Hk) in Eh; discriminate | auto].
    + intros p _. simpl. rewrite app_nil_r. destruct p as [k| |]; simpl; auto.
      rewrite nget_nput. destruct (N.eqb_spec k h) as [->|]; [now rewrite Eh | reflexivity].
  - (* CDrop *)
    intro H; apply pair_equal_spec in H as [<- <-]. intros _. unfold drop_one.
    destruct (nget h (cx_one c)) as [x|] eqn:Eh.
    + split.
      * constructor; auto. intros k Hk. cbn [cx_one cx_next v_one] in *. rewrite nget_nput.
        destruct (N.eqb_spec k h) as [->|]; [rewrite (AO h Hk) in Eh; discriminate | auto].
      * intros p Hd. simpl. rewrite app_nil_r. destruct p as [k| |]; simpl; auto.
        rewrite nget_nput. simpl in Hd. now rewrite Hd.
    + split; [exact A|]. intros p _. simpl. now rewrite app_nil_r.
  - (* COwnerRecv *)
    unfold recv_owner. destruct (ch_q (cx_owner c)) as [|ev q] eqn:Eq;
      intro H; apply pair_equal_spec in H as [<- <-]; intros _.
    + split; [exact A|]. intros p _. simpl. now rewrite app_nil_r.
    + split; [constructor; assumption|]. intros p _. simpl. rewrite app_nil_r.
      destruct p as [k| |]; simpl; auto.
  - (* COwnerDrop *)
    intro H; apply pair_equal_spec in H as [<- <-]. intros _.
    split; [constructor; assumption|].
    intros p Hd. simpl. rewrite app_nil_r. destruct p as [k| |]; simpl; auto. discriminate.
  - (* CPoolRecv *)
    unfold recv_pool. destruct (ch_q (cx_pool c)) as [|m q] eqn:Eq;
      intro H; apply pair_equal_spec in H as [<- <-]; intros _.
    + split; [exact A|]. intros p _. simpl. now rewrite app_nil_r.
    + split; [constructor; assumption|]. intros p _. simpl. rewrite app_nil_r.
      destruct p as [k| |]; simpl; auto. now rewrite Eq.
  - (* CPoolDrop *)
    intro H; apply pair_equal_spec in H as [<- <-]. intros _.
    split; [constructor; assumption|].
    intros p Hd. simpl. rewrite app_nil_r. destruct p as [k| |]; simpl; auto. discriminate.
Qed.
