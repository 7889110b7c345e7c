(** Proofs about the port mapper. *)
From Coq Require Import List NArith Bool Lia.
From Verif Require Import PmapModel PmapSpec.
Import ListNotations.
Open Scope N_scope.

(** * Attempts *)
Lemma attempt_got : forall A (f : fut A) a,
  attempt f = Got a <-> exists k, (k < 3)%nat /\ f = After k (Some a).
Proof.
  intros A f a. unfold attempt, NUM_RETRIES. split.
  - destruct f as [|[|[|[|k]]] [x|]]; cbn; intros h; try discriminate; injection h as <-;
      eexists; (split; [|reflexivity]); lia.
  - intros (k & hk & ->). destruct k as [|[|[|k]]]; cbn; try reflexivity. lia.
Qed.
Lemma attempt_gave_up : forall A (f : fut A),
  attempt f = GaveUp <-> f = Never \/ (exists k r, (3 <= k)%nat /\ f = After k r) \/ f = After 2 None.
Proof.
  intros A f. unfold attempt, NUM_RETRIES. split.
  - destruct f as [|[|[|[|k]]] [x|]]; cbn; intros h; try discriminate; auto.
    + right; left; eexists _, _; (split; [|reflexivity]); lia.
    + right; left; eexists _, _; (split; [|reflexivity]); lia.
  - intros [-> | [(k & r & hk & ->) | ->]]; try reflexivity.
    destruct k as [|[|[|k]]]; try lia. reflexivity.
Qed.
Lemma attempt_crashed : forall A (f : fut A),
  attempt f = Crashed <-> exists k, (k < 2)%nat /\ f = After k None.
Proof.
  intros A f. unfold attempt, NUM_RETRIES. split.
  - destruct f as [|[|[|[|k]]] [x|]]; cbn; intros h; try discriminate;
      eexists; (split; [|reflexivity]); lia.
  - intros (k & hk & ->). destruct k as [|[|k]]; cbn; try reflexivity. lia.
Qed.

(** * A property of every action *)
Section Every.
Variables (cfg : config) (ps : ports).
Variable P : act -> Prop.

Definition nat_maps_ok : Prop :=
  forall p, p_ntcp2 ps = Some p \/ p_ssu2 ps = Some p -> P (AMap TCP p PORT_MAPPING_LIFETIME).
Definition upnp_maps_ok : Prop := forall p n, needed ps p n -> P (AMap p n 0).

Lemma nat_map_every : forall port f a r, nat_maps_ok ->
  (port = p_ntcp2 ps \/ port = p_ssu2 ps) -> nat_map port f = (a, r) -> Forall P a.
Proof.
  intros port f a r hn hp h. destruct port as [p|]; cbn [nat_map] in h;
    apply pair_equal_spec in h as [<- _].
  - constructor; [|constructor]. apply hn. destruct hp as [e | e]; [left | right]; congruence.
  - constructor.
Qed.
Lemma upnp_map_every : forall p port f a r, upnp_maps_ok ->
  ((p = TCP /\ port = p_ntcp2 ps) \/ (p = UDP /\ port = p_ssu2 ps)) ->
  upnp_map p port f = (a, r) -> Forall P a.
Proof.
  intros p port f a r hu hp h. destruct port as [n|]; cbn [upnp_map] in h;
    apply pair_equal_spec in h as [<- _].
  - constructor; [|constructor]. apply hu.
    destruct hp as [[-> e] | [-> e]]; [left | right]; split; congruence.
  - constructor.
Qed.

Hypothesis ask_ok : forall t, P (AAsk t).

Lemma upnp_run_every : forall now u a t, upnp_maps_ok ->
  (forall k x, u_addr u = After k (Some (V4 x)) -> P (AAddress x)) ->
  upnp_run ps now u = (a, t) -> Forall P a.
Proof.
  intros now u a t hu hx h. unfold upnp_run in h.
  destruct (u_local u); cbn [negb] in h; [|apply pair_equal_spec in h as [<- _]; constructor].
  destruct (u_gateway u); cbn [negb] in h; [|apply pair_equal_spec in h as [<- _]; constructor].
  destruct (upnp_map TCP (p_ntcp2 ps) (u_ntcp2 u)) as [a1 r1] eqn:e1.
  destruct (upnp_map UDP (p_ssu2 ps) (u_ssu2 u)) as [a2 r2] eqn:e2.
  apply upnp_map_every in e1; [|exact hu|left; split; reflexivity].
  apply upnp_map_every in e2; [|exact hu|right; split; reflexivity].
  destruct r1; [..|apply pair_equal_spec in h as [<- _]; exact e1];
  (destruct r2; [..|apply pair_equal_spec in h as [<- _]; apply Forall_app; split; assumption]);
  (destruct (attempt (u_addr u)) as [[x|x]| |] eqn:ea;
   apply pair_equal_spec in h as [<- _];
   rewrite ?Forall_app; repeat (split; try assumption);
   try (constructor; [|constructor]); try apply ask_ok;
   apply attempt_got in ea; destruct ea as (k & _ & ea); eapply hx; exact ea).
Qed.
Lemma switch_every : forall now u a t, (c_upnp cfg = true -> upnp_maps_ok) ->
  (forall k x, u_addr u = After k (Some (V4 x)) -> P (AAddress x)) ->
  switch cfg ps now u = (a, t) -> Forall P a.
Proof.
  intros now u a t hu hx h. unfold switch in h. destruct (c_upnp cfg); cbn [negb] in h.
  - eapply upnp_run_every; eauto.
  - apply pair_equal_spec in h as [<- _]. constructor.
Qed.
Lemma nat_address_got : forall f a, nat_address f = Got (Some a) ->
  exists k, f = After k (Some (RGateway a)).
Proof.
  intros f a h. unfold nat_address in h. destruct (attempt f) as [[| |x]| |] eqn:e; try discriminate.
  injection h as ->. apply attempt_got in e as (k & _ & e). eauto.
Qed.
Lemma nat_run_every : forall now n u a t, nat_maps_ok -> (c_upnp cfg = true -> upnp_maps_ok) ->
  (forall k x, n_addr n = After k (Some (RGateway x)) -> P (AAddress x)) ->
  (forall k x, u_addr u = After k (Some (V4 x)) -> P (AAddress x)) ->
  nat_run cfg ps now n u = (a, t) -> Forall P a.
Proof.
  intros now n u a t hn hu hy hx h. unfold nat_run in h.
  destruct (switch cfg ps now u) as [as_ ts] eqn:es.
  apply switch_every in es; [|assumption..].
  destruct (nat_map (p_ntcp2 ps) (n_ntcp2 n)) as [a1 r1] eqn:e1.
  destruct (nat_map (p_ssu2 ps) (n_ssu2 n)) as [a2 r2] eqn:e2.
  apply nat_map_every in e1; [|exact hn|left; reflexivity].
  apply nat_map_every in e2; [|exact hn|right; reflexivity].
  destruct (attempt (n_client n)); [|apply pair_equal_spec in h as [<- _]; exact es|
    apply pair_equal_spec in h as [<- _]; constructor].
  destruct r1; [| |apply pair_equal_spec in h as [<- _]; exact e1];
    [|apply pair_equal_spec in h as [<- _]; apply Forall_app; split; assumption].
  destruct r2; [| |apply pair_equal_spec in h as [<- _]; apply Forall_app; split; assumption];
    [|apply pair_equal_spec in h as [<- _]; rewrite ?Forall_app; repeat split; assumption].
  destruct (nat_address (n_addr n)) as [[x|]| |] eqn:ea;
   apply pair_equal_spec in h as [<- _];
   rewrite ?Forall_app; repeat (split; try assumption);
   try (constructor; [|constructor]); try apply ask_ok.
  apply nat_address_got in ea as (k & ea). eapply hy; exact ea.
Qed.

Definition nat_task (t : task) : bool := match t with TNat _ _ _ => true | _ => false end.
Definition upnp_task (t : task) : bool := match t with TUpnp _ _ _ => true | _ => false end.

Lemma step_every : forall t now ev a t',
  (nat_task t = true -> nat_maps_ok) ->
  (forall p n, P (AUnmap p n)) -> P AAck ->
  (forall f g, ev = EAddress f g ->
     (forall k x, f = After k (Some (RGateway x)) -> P (AAddress x)) /\
     (forall k x, g = After k (Some (V4 x)) -> P (AAddress x))) ->
  step ps t now ev = (a, t') -> Forall P a.
Proof.
  intros t now ev a t' hn hun hack hx h.
  destruct t as [addr ta tm | addr ta [|] | |]; cbn [step] in h;
    try (apply pair_equal_spec in h as [<- _]; constructor).
  - specialize (hn eq_refl). destruct ev as [| | f g | f1 f2].
    + apply pair_equal_spec in h as [<- _]. constructor; [exact hack | constructor].
    + apply pair_equal_spec in h as [<- _]. constructor.
    + destruct (hx f g eq_refl) as [hf _].
      destruct (nat_address f) as [[x|]| |] eqn:ea;
        [destruct (x =? addr)|..]; apply pair_equal_spec in h as [<- _];
        repeat (constructor; try apply ask_ok).
      apply nat_address_got in ea as (k & ea). eapply hf; exact ea.
    + destruct (nat_map (p_ntcp2 ps) f1) as [a1 r1] eqn:e1.
      destruct (nat_map (p_ssu2 ps) f2) as [a2 r2] eqn:e2.
      apply nat_map_every in e1; [|exact hn|left; reflexivity].
      apply nat_map_every in e2; [|exact hn|right; reflexivity].
      destruct r1; [| |apply pair_equal_spec in h as [<- _]; exact e1];
      (destruct r2; apply pair_equal_spec in h as [<- _]; apply Forall_app; split; assumption).
  - assert (hu : Forall P (unmap ps)).
    { unfold unmap. apply Forall_app. split.
      - destruct (p_ssu2 ps); repeat constructor; apply hun.
      - destruct (p_ntcp2 ps); repeat constructor; apply hun. }
    destruct ev as [| | f g | f1 f2].
    + apply pair_equal_spec in h as [<- _]. apply Forall_app.
      split; [exact hu | constructor; [exact hack | constructor]].
    + apply pair_equal_spec in h as [<- _]. exact hu.
    + destruct (hx f g eq_refl) as [_ hg].
      destruct (attempt g) as [[x|x]| |] eqn:ea;
        [destruct (match addr with Some b => x =? b | None => false end)|..];
        apply pair_equal_spec in h as [<- _]; repeat (constructor; try apply ask_ok).
      apply attempt_got in ea as (k & _ & ea). eapply hg; exact ea.
    + apply pair_equal_spec in h as [<- _]. constructor.
Qed.
End Every.

(** * Which loop is running *)
Lemma upnp_run_task : forall ps now u a t, upnp_run ps now u = (a, t) -> nat_task t = false.
Proof.
  intros ps now u a t h. unfold upnp_run in h.
  destruct (u_local u); cbn [negb] in h; [|apply pair_equal_spec in h as [_ <-]; reflexivity].
  destruct (u_gateway u); cbn [negb] in h; [|apply pair_equal_spec in h as [_ <-]; reflexivity].
  destruct (upnp_map TCP (p_ntcp2 ps) (u_ntcp2 u)) as [a1 r1].
  destruct (upnp_map UDP (p_ssu2 ps) (u_ssu2 u)) as [a2 r2].
  destruct r1; [..|apply pair_equal_spec in h as [_ <-]; reflexivity];
  (destruct r2; [..|apply pair_equal_spec in h as [_ <-]; reflexivity]);
  (destruct (attempt (u_addr u)) as [[x|x]| |]; apply pair_equal_spec in h as [_ <-]; reflexivity).
Qed.
Lemma switch_task : forall cfg ps now u a t, switch cfg ps now u = (a, t) ->
  nat_task t = false /\ (c_upnp cfg = false -> a = [] /\ t = TEnded).
Proof.
  intros cfg ps now u a t h. unfold switch in h. destruct (c_upnp cfg); cbn [negb] in h.
  - split; [eapply upnp_run_task; eauto | discriminate].
  - apply pair_equal_spec in h as [<- <-]. split; [reflexivity|]. intros _. split; reflexivity.
Qed.
Lemma nat_run_task : forall cfg ps now n u a t, nat_run cfg ps now n u = (a, t) ->
  c_upnp cfg = false -> upnp_task t = false.
Proof.
  intros cfg ps now n u a t h hc. unfold nat_run in h.
  destruct (switch cfg ps now u) as [as_ ts] eqn:es.
  apply switch_task in es as [_ es]. destruct (es hc) as [-> ->].
  destruct (attempt (n_client n)); [|apply pair_equal_spec in h as [_ <-]; reflexivity..].
  destruct (nat_map (p_ntcp2 ps) (n_ntcp2 n)) as [a1 [x1| |]];
    [|apply pair_equal_spec in h as [_ <-]; reflexivity..].
  destruct (nat_map (p_ssu2 ps) (n_ssu2 n)) as [a2 [x2| |]];
    [|apply pair_equal_spec in h as [_ <-]; reflexivity..].
  destruct (nat_address (n_addr n)) as [[x|]| |]; apply pair_equal_spec in h as [_ <-]; reflexivity.
Qed.
Lemma start_task : forall cfg ps now n u a t, start cfg ps now n u = (a, t) ->
  (c_nat_pmp cfg = false -> nat_task t = false) /\ (c_upnp cfg = false -> upnp_task t = false).
Proof.
  intros cfg ps now n u a t h. unfold start in h.
  destruct (c_nat_pmp cfg) eqn:en, (c_upnp cfg) eqn:eu; cbn [andb negb] in h.
  - split; discriminate.
  - split; [discriminate|]. intros _. eapply nat_run_task; eauto.
  - split; [|discriminate]. intros _. eapply upnp_run_task; eauto.
  - apply pair_equal_spec in h as [_ <-]. split; reflexivity.
Qed.
Lemma step_task : forall ps t now ev a t', step ps t now ev = (a, t') ->
  (nat_task t = false -> nat_task t' = false) /\ (upnp_task t = false -> upnp_task t' = false).
Proof.
  intros ps t now ev a t' h.
  destruct t as [addr ta tm | addr ta [|] | |]; cbn [step] in h;
    try (apply pair_equal_spec in h as [_ <-]; split; intros; reflexivity).
  - split; [discriminate|]. intros _. destruct ev as [| | f g | f1 f2].
    + apply pair_equal_spec in h as [_ <-]. reflexivity.
    + apply pair_equal_spec in h as [_ <-]. reflexivity.
    + destruct (nat_address f) as [[x|]| |]; [destruct (x =? addr)|..];
        apply pair_equal_spec in h as [_ <-]; reflexivity.
    + destruct (nat_map (p_ntcp2 ps) f1) as [a1 r1]. destruct (nat_map (p_ssu2 ps) f2) as [a2 r2].
      destruct r1, r2; apply pair_equal_spec in h as [_ <-]; reflexivity.
  - split; [|discriminate]. intros _. destruct ev as [| | f g | f1 f2];
      try (apply pair_equal_spec in h as [_ <-]; reflexivity).
    destruct (attempt g) as [[x|x]| |];
      [destruct (match addr with Some b => x =? b | None => false end)|..];
      apply pair_equal_spec in h as [_ <-]; reflexivity.
Qed.

(** * Runs *)
Lemma rounds_cons : forall ps t now at_ ev rest tr t',
  rounds ps t now ((at_, ev) :: rest) = Some (tr, t') ->
  now <= at_ /\ may t at_ ev = true /\
  exists a t1 b, step ps t at_ ev = (a, t1) /\ rounds ps t1 at_ rest = Some (b, t') /\ tr = a ++ b.
Proof.
  intros ps t now at_ ev rest tr t' h. cbn [rounds] in h.
  destruct ((now <=? at_) && may t at_ ev) eqn:e; [|discriminate].
  apply andb_true_iff in e as [e1 e2]. apply N.leb_le in e1.
  destruct (step ps t at_ ev) as [a t1] eqn:es.
  destruct (rounds ps t1 at_ rest) as [[b t2]|] eqn:er; [|discriminate].
  injection h as <- <-. split; [exact e1|]. split; [exact e2|]. exists a, t1, b. auto.
Qed.
Lemma run_inv : forall cfg ps now n u evs tr t, run cfg ps now n u evs = Some (tr, t) ->
  exists a t0 b, start cfg ps now n u = (a, t0) /\ rounds ps t0 now evs = Some (b, t) /\ tr = a ++ b.
Proof.
  intros cfg ps now n u evs tr t h. unfold run in h.
  destruct (start cfg ps now n u) as [a t0]. destruct (rounds ps t0 now evs) as [[b t1]|] eqn:e; [|discriminate].
  injection h as <- <-. exists a, t0, b. auto.
Qed.

Section Every2.
Variables (cfg : config) (ps : ports).
Variable P : act -> Prop.
Hypothesis ask_ok : forall t, P (AAsk t).
Hypothesis unmap_ok : forall p n, P (AUnmap p n).
Hypothesis ack_ok : P AAck.

Lemma rounds_every : forall evs t now tr t',
  (nat_task t = true -> nat_maps_ok ps P) ->
  (forall x, (exists s f g, In (s, EAddress f g) evs /\
     ((exists k, f = After k (Some (RGateway x))) \/ (exists k, g = After k (Some (V4 x))))) ->
     P (AAddress x)) ->
  rounds ps t now evs = Some (tr, t') -> Forall P tr.
Proof.
  induction evs as [|[s ev] rest IH]; intros t now tr t' hn hx h.
  - injection h as <- _. constructor.
  - apply rounds_cons in h as (_ & _ & a & t1 & b & es & er & ->). apply Forall_app. split.
    + eapply step_every; try eassumption. intros f g ->. split; intros k x e; apply hx;
        exists s, f, g; (split; [left; reflexivity|]); [left | right]; eauto.
    + eapply IH; [| |exact er].
      * intros e. apply hn. apply step_task in es as [es _].
        destruct (nat_task t); [reflexivity|]. rewrite es in e by reflexivity. discriminate.
      * intros x (s' & f & g & i & e). apply hx. exists s', f, g. split; [right; exact i | exact e].
Qed.
Lemma run_every : forall now n u evs tr t,
  (c_nat_pmp cfg = true -> nat_maps_ok ps P) ->
  (c_upnp cfg = true -> upnp_maps_ok ps P) ->
  (forall x, said x n u evs -> P (AAddress x)) ->
  run cfg ps now n u evs = Some (tr, t) -> Forall P tr.
Proof.
  intros now n u evs tr t hn hu hx h. apply run_inv in h as (a & t0 & b & es & er & ->).
  assert (hy : forall k x, n_addr n = After k (Some (RGateway x)) -> P (AAddress x)).
  { intros k x e. apply hx. left. eauto. }
  assert (hz : forall k x, u_addr u = After k (Some (V4 x)) -> P (AAddress x)).
  { intros k x e. apply hx. right; left. eauto. }
  apply Forall_app. split.
  - unfold start in es. destruct (c_nat_pmp cfg) eqn:en; cbn [negb] in es.
    + rewrite andb_false_r in es. eapply nat_run_every; eauto.
    + destruct (c_upnp cfg) eqn:eu; cbn [negb andb] in es.
      * eapply upnp_run_every; eauto.
      * apply pair_equal_spec in es as [<- _]. constructor.
  - eapply rounds_every; [| |exact er].
    + intros e. apply hn. apply start_task in es as [es _].
      destruct (c_nat_pmp cfg); [reflexivity|]. rewrite es in e by reflexivity. discriminate.
    + intros x e. apply hx. right; right. exact e.
Qed.
End Every2.
