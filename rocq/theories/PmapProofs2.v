(** More proofs about the port mapper: what stays, which addresses are told, how often. *)
From Coq Require Import List NArith Bool Lia.
From Verif Require Import PmapModel PmapSpec PmapProofs.
Import ListNotations.
Open Scope N_scope.

(** * What stays *)
Definition ends (x : act) : Prop := match x with AMap _ _ l => l <> 0 | _ => True end.

Lemma stays_nil_maps : forall tr p n, Forall ends tr -> ~ stays tr p n.
Proof.
  intros tr p n h (a & b & -> & _). rewrite Forall_app in h. destruct h as [_ h].
  inversion h as [|x y h1 _ e]; subst. exact (h1 eq_refl).
Qed.
Lemma stays_app : forall tr s p n, Forall ends s -> stays (tr ++ s) p n ->
  stays tr p n /\ ~ In (AUnmap p n) s.
Proof.
  induction tr as [|x tr IH]; intros s p n hs h.
  - exfalso. exact (stays_nil_maps _ _ _ hs h).
  - destruct h as (a & b & e & hb). destruct a as [|y a]; cbn [app] in e.
    + injection e as e1 e2. subst x b. split.
      * exists [], tr. split; [reflexivity|]. intros i. apply hb. apply in_or_app. left. exact i.
      * intros i. apply hb. apply in_or_app. right. exact i.
    + injection e as <- e. destruct (IH s p n hs) as [(a' & b' & e' & hb') hn].
      * exists a, b. split; assumption.
      * split; [|exact hn]. exists (x :: a'), b'. split; [rewrite e'; reflexivity | exact hb'].
Qed.
Lemma stays_in : forall tr p n, stays tr p n -> In (AMap p n 0) tr.
Proof. intros tr p n (a & b & -> & _). apply in_or_app. right. left. reflexivity. Qed.

Lemma nat_map_ends : forall port f a r, nat_map port f = (a, r) -> Forall ends a.
Proof.
  intros [p|] f a r h; cbn [nat_map] in h; apply pair_equal_spec in h as [<- _]; repeat constructor.
  discriminate.
Qed.
Definition start_shape (a : list act) (t : task) : Prop :=
  match t with
  | TNat _ _ _ | TEnded => Forall ends a
  | TUpnp _ _ c => c = false
  | TPanicked => True
  end.
Lemma upnp_run_shape : forall ps now u a t, upnp_run ps now u = (a, t) -> start_shape a t.
Proof.
  intros ps now u a t h. unfold upnp_run in h.
  destruct (u_local u); cbn [negb] in h; [|apply pair_equal_spec in h as [<- <-]; constructor].
  destruct (u_gateway u); cbn [negb] in h; [|apply pair_equal_spec in h as [<- <-]; constructor].
  destruct (upnp_map TCP (p_ntcp2 ps) (u_ntcp2 u)) as [a1 r1].
  destruct (upnp_map UDP (p_ssu2 ps) (u_ssu2 u)) as [a2 r2].
  destruct r1; [..|apply pair_equal_spec in h as [_ <-]; exact I];
  (destruct r2; [..|apply pair_equal_spec in h as [_ <-]; exact I]);
  (destruct (attempt (u_addr u)) as [[x|x]| |]; apply pair_equal_spec in h as [_ <-];
   first [exact I | reflexivity]).
Qed.
Lemma switch_shape : forall cfg ps now u a t, switch cfg ps now u = (a, t) -> start_shape a t.
Proof.
  intros cfg ps now u a t h. unfold switch in h. destruct (c_upnp cfg); cbn [negb] in h.
  - eapply upnp_run_shape; eauto.
  - apply pair_equal_spec in h as [<- <-]. constructor.
Qed.
Lemma shape_app : forall b a t, Forall ends b -> start_shape a t -> start_shape (b ++ a) t.
Proof.
  intros b a t hb h. destruct t; cbn [start_shape] in *; try assumption; apply Forall_app; auto.
Qed.
Lemma start_clean : forall cfg ps now n u a t, start cfg ps now n u = (a, t) -> start_shape a t.
Proof.
  intros cfg ps now n u a t h. unfold start in h.
  destruct (negb (c_upnp cfg) && negb (c_nat_pmp cfg)).
  { apply pair_equal_spec in h as [<- <-]. constructor. }
  destruct (c_nat_pmp cfg); [|eapply upnp_run_shape; eauto].
  unfold nat_run in h.
  destruct (switch cfg ps now u) as [as_ ts] eqn:es. apply switch_shape in es.
  destruct (attempt (n_client n)); [|apply pair_equal_spec in h as [<- <-]; exact es|
    apply pair_equal_spec in h as [_ <-]; exact I].
  destruct (nat_map (p_ntcp2 ps) (n_ntcp2 n)) as [a1 r1] eqn:e1. apply nat_map_ends in e1.
  destruct (nat_map (p_ssu2 ps) (n_ssu2 n)) as [a2 r2] eqn:e2. apply nat_map_ends in e2.
  destruct r1; [| |apply pair_equal_spec in h as [_ <-]; exact I];
    [|apply pair_equal_spec in h as [<- <-]; apply shape_app; assumption].
  destruct r2; [| |apply pair_equal_spec in h as [_ <-]; exact I];
    [|apply pair_equal_spec in h as [<- <-]; rewrite app_assoc; apply shape_app; try assumption; apply Forall_app; auto].
  assert (e3 : Forall ends (a1 ++ a2 ++ [AAsk now])).
  { rewrite !Forall_app. repeat split; try assumption. constructor; [exact I | constructor]. }
  destruct (nat_address (n_addr n)) as [[x|]| |]; apply pair_equal_spec in h as [<- <-];
    [|apply shape_app; assumption|apply shape_app; assumption|exact I].
  cbn [start_shape]. apply Forall_app. split; [exact e3 | constructor; [exact I | constructor]].
Qed.

Lemma unmap_ends : forall ps, Forall ends (unmap ps).
Proof.
  intros ps. unfold unmap. apply Forall_app. split.
  - destruct (p_ssu2 ps); repeat constructor.
  - destruct (p_ntcp2 ps); repeat constructor.
Qed.
Lemma unmap_needed : forall ps p n, needed ps p n -> In (AUnmap p n) (unmap ps).
Proof.
  intros ps p n [[-> e] | [-> e]]; unfold unmap; apply in_or_app; rewrite e.
  - right. left. reflexivity.
  - left. left. reflexivity.
Qed.

(** the invariant: nothing without an end stays unless the UPnP loop is running (or has panicked),
    and then only what [unmap] removes *)
Definition inv (ps : ports) (tr : list act) (t : task) : Prop :=
  match t with
  | TNat _ _ _ => Forall ends tr
  | TUpnp _ _ false => forall p n, In (AMap p n 0) tr -> needed ps p n
  | TUpnp _ _ true | TEnded => forall p n, ~ stays tr p n
  | TPanicked => True
  end.
Definition lawful (ps : ports) (x : act) : Prop :=
  match x with AMap p n l => l = 0 -> needed ps p n | _ => True end.
Lemma lawful_in : forall ps tr, Forall (lawful ps) tr -> forall p n, In (AMap p n 0) tr -> needed ps p n.
Proof. intros ps tr h p n i. rewrite Forall_forall in h. exact (h _ i eq_refl). Qed.
Lemma ends_lawful : forall ps tr, Forall ends tr -> Forall (lawful ps) tr.
Proof.
  intros ps tr h. eapply Forall_impl; [|exact h]. intros [p n l| | | |] e; cbn in *; try exact I.
  intros ->. contradiction.
Qed.
Lemma in_app_ends : forall tr s p n, Forall ends s -> In (AMap p n 0) (tr ++ s) -> In (AMap p n 0) tr.
Proof.
  intros tr s p n h i. apply in_app_or in i as [i | i]; [exact i|].
  rewrite Forall_forall in h. exfalso. exact (h _ i eq_refl).
Qed.

Lemma step_inv : forall ps t now ev a t' tr, may t now ev = true ->
  inv ps tr t -> step ps t now ev = (a, t') -> inv ps (tr ++ a) t'.
Proof.
  intros ps t now ev a t' tr hm hi h.
  destruct t as [addr ta tm | addr ta [|] | |]; cbn [step] in h.
  - assert (hend : Forall ends a -> inv ps (tr ++ a) t').
    { intros ha. assert (hta : Forall ends (tr ++ a)) by (apply Forall_app; auto).
      destruct t' as [? ? ? | ? ? [|] | |]; cbn [inv]; try exact hta; try exact I;
        try (intros p n; apply stays_nil_maps; exact hta);
        intros p n i; eapply lawful_in; try exact i; apply ends_lawful; exact hta. }
    apply hend. destruct ev as [| | f g | f1 f2].
    + apply pair_equal_spec in h as [<- _]. repeat constructor.
    + apply pair_equal_spec in h as [<- _]. constructor.
    + destruct (nat_address f) as [[x|]| |]; [destruct (x =? addr)|..];
        apply pair_equal_spec in h as [<- _]; repeat constructor.
    + destruct (nat_map (p_ntcp2 ps) f1) as [a1 r1] eqn:e1. apply nat_map_ends in e1.
      destruct (nat_map (p_ssu2 ps) f2) as [a2 r2] eqn:e2. apply nat_map_ends in e2.
      destruct r1; [| |apply pair_equal_spec in h as [<- _]; exact e1];
      (destruct r2; apply pair_equal_spec in h as [<- _]; apply Forall_app; split; assumption).
  - apply pair_equal_spec in h as [_ <-]. exact I.
  - cbn [inv] in hi. destruct ev as [| | f g | f1 f2].
    + apply pair_equal_spec in h as [<- <-]. cbn [inv]. intros p n hs.
      assert (he : Forall ends (unmap ps ++ [AAck])).
      { apply Forall_app. split; [apply unmap_ends | repeat constructor]. }
      apply stays_app in hs as [hs hu]; [|exact he]. apply hu. apply in_or_app. left.
      apply unmap_needed. apply hi. apply stays_in. exact hs.
    + apply pair_equal_spec in h as [<- <-]. cbn [inv]. intros p n hs.
      apply stays_app in hs as [hs hu]; [|apply unmap_ends]. apply hu.
      apply unmap_needed. apply hi. apply stays_in. exact hs.
    + assert (ha : Forall ends a).
      { destruct (attempt g) as [[x|x]| |];
          [destruct (match addr with Some b => x =? b | None => false end)|..];
          apply pair_equal_spec in h as [<- _]; repeat constructor. }
      destruct (attempt g) as [[x|x]| |];
          [destruct (match addr with Some b => x =? b | None => false end)|..];
          apply pair_equal_spec in h as [<- <-]; cbn [inv]; try exact I; intros p n i; apply hi;
          eapply in_app_ends; eauto.
    + discriminate hm.
  - discriminate hm.
  - discriminate hm.
Qed.

Lemma rounds_inv : forall ps evs t now tr0 tr t', inv ps tr0 t ->
  rounds ps t now evs = Some (tr, t') -> inv ps (tr0 ++ tr) t'.
Proof.
  intros ps. induction evs as [|[s ev] rest IH]; intros t now tr0 tr t' hi h.
  - injection h as <- <-. rewrite app_nil_r. exact hi.
  - apply rounds_cons in h as (_ & hm & a & t1 & b & es & er & ->). rewrite app_assoc.
    eapply IH; [|exact er]. eapply step_inv; eauto.
Qed.
Lemma run_lawful : forall cfg ps now n u evs tr t, run cfg ps now n u evs = Some (tr, t) ->
  Forall (lawful ps) tr.
Proof.
  intros cfg ps now n u evs tr t h.
  apply (run_every cfg ps (lawful ps)) in h; try exact h; try (intros; exact I).
  - intros _ p _ e. discriminate e.
  - intros _ p m e _. exact e.
Qed.
Lemma run_inv0 : forall cfg ps now n u evs tr t, run cfg ps now n u evs = Some (tr, t) -> inv ps tr t.
Proof.
  intros cfg ps now n u evs tr t h. apply run_inv in h as (a & t0 & b & es & er & ->).
  eapply rounds_inv; [|exact er].
  assert (hl : run cfg ps now n u [] = Some (a ++ [], t0)) by (unfold run; rewrite es; reflexivity).
  apply run_lawful in hl. rewrite app_nil_r in hl.
  apply start_clean in es. destruct t0 as [? ? ? | ? ? c | |]; cbn [start_shape inv] in *.
  - exact es.
  - subst c. apply lawful_in. exact hl.
  - intros p m. apply stays_nil_maps. exact es.
  - exact I.
Qed.

(** * The addresses told *)
Lemma addresses_app : forall a b, addresses (a ++ b) = addresses a ++ addresses b.
Proof. induction a as [|[] a IH]; intros b; cbn; rewrite ?IH; reflexivity. Qed.
Lemma asks_app : forall a b, asks (a ++ b) = asks a ++ asks b.
Proof. induction a as [|[] a IH]; intros b; cbn; rewrite ?IH; reflexivity. Qed.

Definition latest (l : list N) : option N := match rev l with [] => None | x :: _ => Some x end.
Lemma latest_app1 : forall l x, latest (l ++ [x]) = Some x.
Proof. intros l x. unfold latest. rewrite rev_app_distr. reflexivity. Qed.
Lemma latest_split : forall l x, latest l = Some x -> exists k, l = k ++ [x].
Proof.
  intros l x h. unfold latest in h. destruct (rev l) as [|y r] eqn:e; [discriminate|].
  injection h as ->. exists (rev r). rewrite <- (rev_involutive l), e. reflexivity.
Qed.
Lemma no_repeat_snoc : forall l x, no_repeat l -> latest l <> Some x -> no_repeat (l ++ [x]).
Proof.
  intros l x h hx a y z b e.
  destruct b as [|w b'] using rev_ind.
  - replace (a ++ [y; z]) with ((a ++ [y]) ++ [z]) in e by (rewrite <- app_assoc; reflexivity).
    apply app_inj_tail in e as [-> ->]. intros ->. apply hx. apply latest_app1.
  - replace (a ++ y :: z :: b' ++ [w]) with ((a ++ y :: z :: b') ++ [w]) in e
      by (rewrite <- app_assoc; reflexivity).
    apply app_inj_tail in e as [-> _]. eapply h. reflexivity.
Qed.
Lemma no_repeat_nil : no_repeat [].
Proof. intros a x y b e. destruct a; discriminate e. Qed.

Definition told (tr : list act) (t : task) : Prop :=
  no_repeat (addresses tr) /\
  match t with
  | TNat a _ _ => latest (addresses tr) = Some a
  | TUpnp o _ _ => latest (addresses tr) = o
  | _ => True
  end.
Lemma upnp_map_addresses : forall p port f a r, upnp_map p port f = (a, r) -> addresses a = [].
Proof. intros p [n|] f a r h; cbn [upnp_map] in h; apply pair_equal_spec in h as [<- _]; reflexivity. Qed.
Lemma nat_map_addresses : forall port f a r, nat_map port f = (a, r) -> addresses a = [].
Proof. intros [n|] f a r h; cbn [nat_map] in h; apply pair_equal_spec in h as [<- _]; reflexivity. Qed.

Lemma told_none : forall tr, addresses tr = [] -> told tr TEnded /\ told tr TPanicked.
Proof. intros tr e. unfold told. rewrite e. repeat split; apply no_repeat_nil. Qed.
Lemma told_pre : forall b a t, addresses b = [] -> told a t -> told (b ++ a) t.
Proof. intros b a t e h. unfold told in *. rewrite addresses_app, e. exact h. Qed.
Lemma no_repeat_one : forall x, no_repeat [x].
Proof. intros x a y z b e. destruct a as [|w [|v a]]; discriminate e. Qed.

Lemma upnp_run_told : forall ps now u a t, upnp_run ps now u = (a, t) -> told a t.
Proof.
  intros ps now u a t h. unfold upnp_run in h.
  destruct (u_local u); cbn [negb] in h;
    [|apply pair_equal_spec in h as [<- <-]; apply told_none; reflexivity].
  destruct (u_gateway u); cbn [negb] in h;
    [|apply pair_equal_spec in h as [<- <-]; apply told_none; reflexivity].
  destruct (upnp_map TCP (p_ntcp2 ps) (u_ntcp2 u)) as [a1 r1] eqn:e1. apply upnp_map_addresses in e1.
  destruct (upnp_map UDP (p_ssu2 ps) (u_ssu2 u)) as [a2 r2] eqn:e2. apply upnp_map_addresses in e2.
  assert (e3 : addresses (a1 ++ a2) = []) by (rewrite addresses_app, e1, e2; reflexivity).
  assert (e4 : addresses (a1 ++ a2 ++ [AAsk now]) = [])
    by (rewrite app_assoc, addresses_app, e3; reflexivity).
  destruct r1; [..|apply pair_equal_spec in h as [<- <-]; apply told_none; exact e1];
  (destruct r2; [..|apply pair_equal_spec in h as [<- <-]; apply told_none; exact e3]);
  (destruct (attempt (u_addr u)) as [[x|x]| |]; apply pair_equal_spec in h as [<- <-];
   unfold told; rewrite ?(addresses_app _ [AAddress _]), e4;
   (split; [first [apply no_repeat_nil | apply no_repeat_one] | first [exact I | reflexivity]])).
Qed.
Lemma switch_told : forall cfg ps now u a t, switch cfg ps now u = (a, t) -> told a t.
Proof.
  intros cfg ps now u a t h. unfold switch in h. destruct (c_upnp cfg); cbn [negb] in h.
  - eapply upnp_run_told; eauto.
  - apply pair_equal_spec in h as [<- <-]. apply told_none. reflexivity.
Qed.
Lemma start_told : forall cfg ps now n u a t, start cfg ps now n u = (a, t) -> told a t.
Proof.
  intros cfg ps now n u a t h. unfold start in h.
  destruct (negb (c_upnp cfg) && negb (c_nat_pmp cfg)).
  { apply pair_equal_spec in h as [<- <-]. apply told_none. reflexivity. }
  destruct (c_nat_pmp cfg); [|eapply upnp_run_told; eauto].
  unfold nat_run in h.
  destruct (switch cfg ps now u) as [as_ ts] eqn:es. apply switch_told in es.
  destruct (attempt (n_client n)); [|apply pair_equal_spec in h as [<- <-]; exact es|
    apply pair_equal_spec in h as [<- <-]; apply told_none; reflexivity].
  destruct (nat_map (p_ntcp2 ps) (n_ntcp2 n)) as [a1 r1] eqn:e1. apply nat_map_addresses in e1.
  destruct (nat_map (p_ssu2 ps) (n_ssu2 n)) as [a2 r2] eqn:e2. apply nat_map_addresses in e2.
  assert (e3 : addresses (a1 ++ a2) = []) by (rewrite addresses_app, e1, e2; reflexivity).
  assert (e4 : addresses (a1 ++ a2 ++ [AAsk now]) = [])
    by (rewrite app_assoc, addresses_app, e3; reflexivity).
  destruct r1; [| |apply pair_equal_spec in h as [<- <-]; apply told_none; exact e1];
    [|apply pair_equal_spec in h as [<- <-]; apply told_pre; assumption].
  destruct r2; [| |apply pair_equal_spec in h as [<- <-]; apply told_none; exact e3];
    [|apply pair_equal_spec in h as [<- <-]; rewrite app_assoc; apply told_pre; assumption].
  destruct (nat_address (n_addr n)) as [[x|]| |]; apply pair_equal_spec in h as [<- <-];
    [|apply told_pre; assumption|apply told_pre; assumption|apply told_none; exact e4].
  unfold told. rewrite (addresses_app _ [AAddress x]), e4.
  split; [apply no_repeat_one | reflexivity].
Qed.
Lemma told_same : forall tr a t t', addresses a = [] -> told tr t ->
  match t' with
  | TNat x _ _ => latest (addresses tr) = Some x
  | TUpnp o _ _ => latest (addresses tr) = o
  | _ => True
  end -> told (tr ++ a) t'.
Proof.
  intros tr a t t' e [h _] h'. unfold told. rewrite addresses_app, e, app_nil_r. split; assumption.
Qed.
Lemma unmap_addresses : forall ps, addresses (unmap ps) = [].
Proof. intros ps. unfold unmap. destruct (p_ssu2 ps), (p_ntcp2 ps); reflexivity. Qed.
Lemma step_told : forall ps t now ev a t' tr, told tr t -> step ps t now ev = (a, t') ->
  told (tr ++ a) t'.
Proof.
  intros ps t now ev a t' tr ht h. pose proof ht as [hn hl].
  destruct t as [addr ta tm | addr ta [|] | |]; cbn [step] in h.
  - destruct ev as [| | f g | f1 f2].
    + apply pair_equal_spec in h as [<- <-]. eapply told_same; [reflexivity|exact ht|exact I].
    + apply pair_equal_spec in h as [<- <-]. eapply told_same; [reflexivity|exact ht|exact I].
    + destruct (nat_address f) as [[x|]| |]; [destruct (N.eqb_spec x addr) as [e|e]|..];
        apply pair_equal_spec in h as [<- <-];
        try (eapply told_same; [reflexivity|exact ht|first [exact I | exact hl]]).
      unfold told. rewrite addresses_app. cbn [addresses]. split; [|apply latest_app1].
      apply no_repeat_snoc; [exact hn|]. rewrite hl. congruence.
    + destruct (nat_map (p_ntcp2 ps) f1) as [a1 r1] eqn:e1. apply nat_map_addresses in e1.
      destruct (nat_map (p_ssu2 ps) f2) as [a2 r2] eqn:e2. apply nat_map_addresses in e2.
      assert (e3 : addresses (a1 ++ a2) = []) by (rewrite addresses_app, e1, e2; reflexivity).
      destruct r1; [| |apply pair_equal_spec in h as [<- <-]; eapply told_same; [exact e1|exact ht|exact I]];
      (destruct r2; apply pair_equal_spec in h as [<- <-];
       (eapply told_same; [exact e3|exact ht|first [exact I | exact hl]])).
  - apply pair_equal_spec in h as [<- <-]. eapply told_same; [reflexivity|exact ht|exact I].
  - destruct ev as [| | f g | f1 f2].
    + apply pair_equal_spec in h as [<- <-]. eapply told_same; [|exact ht|exact I].
      rewrite addresses_app, unmap_addresses. reflexivity.
    + apply pair_equal_spec in h as [<- <-]. eapply told_same; [apply unmap_addresses|exact ht|exact hl].
    + destruct (attempt g) as [[x|x]| |];
        [destruct addr as [b|]; [destruct (N.eqb_spec x b) as [e|e]|]|..];
        apply pair_equal_spec in h as [<- <-];
        try (eapply told_same; [reflexivity|exact ht|first [exact I | exact hl]]);
        (unfold told; rewrite addresses_app; cbn [addresses]; split; [|apply latest_app1];
         apply no_repeat_snoc; [exact hn|]; rewrite hl; congruence).
    + apply pair_equal_spec in h as [<- <-]. eapply told_same; [reflexivity|exact ht|exact hl].
  - apply pair_equal_spec in h as [<- <-]. eapply told_same; [reflexivity|exact ht|exact I].
  - apply pair_equal_spec in h as [<- <-]. eapply told_same; [reflexivity|exact ht|exact I].
Qed.
Lemma rounds_told : forall ps evs t now tr0 tr t', told tr0 t ->
  rounds ps t now evs = Some (tr, t') -> told (tr0 ++ tr) t'.
Proof.
  intros ps. induction evs as [|[s ev] rest IH]; intros t now tr0 tr t' hi h.
  - injection h as <- <-. rewrite app_nil_r. exact hi.
  - apply rounds_cons in h as (_ & hm & a & t1 & b & es & er & ->). rewrite app_assoc.
    eapply IH; [|exact er]. eapply step_told; eauto.
Qed.
Lemma run_told : forall cfg ps now n u evs tr t, run cfg ps now n u evs = Some (tr, t) -> told tr t.
Proof.
  intros cfg ps now n u evs tr t h. apply run_inv in h as (a & t0 & b & es & er & ->).
  eapply rounds_told; [|exact er]. eapply start_told; exact es.
Qed.

(** * How often the address is asked for *)
Lemma apart_cons : forall d x y l, x + d <= y -> apart d (y :: l) -> apart d (x :: y :: l).
Proof.
  intros d x y l h hl a u v b e. destruct a as [|w a]; cbn [app] in e.
  - injection e as -> -> _. exact h.
  - injection e as _ e. eapply hl. exact e.
Qed.
Lemma apart_one : forall d x, apart d [x].
Proof. intros d x a y z b e. destruct a as [|w [|v a]]; discriminate e. Qed.
Lemma rounds_over : forall ps t now evs tr t', t = TEnded \/ t = TPanicked ->
  rounds ps t now evs = Some (tr, t') -> tr = [] /\ t' = t.
Proof.
  intros ps t now evs tr t' ht h. destruct evs as [|[s ev] rest].
  - injection h as <- <-. auto.
  - apply rounds_cons in h as (_ & hm & _). destruct ht as [-> | ->]; discriminate hm.
Qed.
Lemma nat_apart : forall ps evs addr ta tm now tr t,
  rounds ps (TNat addr ta tm) now evs = Some (tr, t) -> apart ADDRESS_REFRESH (ta :: asks tr).
Proof.
  intros ps. induction evs as [|[s ev] rest IH]; intros addr ta tm now tr t h.
  - injection h as <- _. apply apart_one.
  - apply rounds_cons in h as (_ & hm & a & t1 & b & es & er & ->). rewrite asks_app.
    cbn [step] in es. destruct ev as [| | f g | f1 f2].
    + apply pair_equal_spec in es as [<- <-]. apply rounds_over in er as [-> _]; [|auto]. apply apart_one.
    + apply pair_equal_spec in es as [<- <-]. apply rounds_over in er as [-> _]; [|auto]. apply apart_one.
    + cbn [may] in hm. apply N.leb_le in hm.
      destruct (nat_address f) as [[x|]| |]; [destruct (x =? addr)|..];
        apply pair_equal_spec in es as [<- <-]; cbn [asks app];
        (apply apart_cons; [exact hm|]); try (eapply IH; exact er).
      apply rounds_over in er as [-> _]; [|auto]. apply apart_one.
    + assert (hk : forall p f a r, nat_map p f = (a, r) -> asks a = []).
      { intros [p|] f a0 r e; cbn [nat_map] in e; apply pair_equal_spec in e as [<- _]; reflexivity. }
      destruct (nat_map (p_ntcp2 ps) f1) as [a1 r1] eqn:e1. apply hk in e1.
      destruct (nat_map (p_ssu2 ps) f2) as [a2 r2] eqn:e2. apply hk in e2.
      destruct r1; [destruct r2|destruct r2|]; apply pair_equal_spec in es as [<- <-];
        rewrite ?asks_app, e1, ?e2; cbn [app];
        try (eapply IH; exact er); apply rounds_over in er as [-> _]; auto; apply apart_one.
Qed.
