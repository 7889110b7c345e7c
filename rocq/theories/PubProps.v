(** C139, C140: which addresses and capabilities the router publishes, and when. *)
From Coq Require Import List NArith Bool Lia.
From Verif Require Import PubModel PubSpec.
Import ListNotations.
Open Scope N_scope.

Lemma learned_app : forall a b x, learned (a ++ b) x = learned b (learned a x).
Proof. induction a as [|[] a IH]; intros b x; cbn; auto. Qed.
Lemma run_app : forall a b s, run s (a ++ b) =
  (fst (run (fst (run s a)) b), snd (run s a) ++ snd (run (fst (run s a)) b)).
Proof.
  induction a as [|o a IH]; intros b s; cbn [app run fst snd].
  - destruct (run s b). reflexivity.
  - destruct (step s o) as [s1 x]. rewrite IH. destruct (run s1 a) as [s2 y]. cbn [fst snd].
    rewrite app_assoc. reflexivity.
Qed.

(** * The invariant *)
Definition made (port : tconf -> N) (t : option tconf) (external : option N) (a : option addr) : Prop :=
  match t with
  | None => a = None
  | Some t =>
      if t_publish t then
        match t_host t, external with
        | Some h, _ => a = Some (Public h (t_bound t))
        | None, Some e => a = Some (Public e (port t))
        | None, None => a = Some Hidden
        end
      else a = Some Hidden
  end.
Definition inv (c : config) (ops : list op) (s : state) : Prop :=
  s_ntcp2 s = c_ntcp2 c /\ s_ssu2 s = c_ssu2 c /\ s_no_transit s = c_no_transit c /\
  s_external s = learned ops None /\
  (s_shutting s = true <-> In OShutdown ops) /\
  made t_port (c_ntcp2 c) (learned ops None) (s_addr1 s) /\
  made t_port (c_ssu2 c) (learned ops None) (s_addr2 s) /\
  (s_shutting s = false -> c_no_transit c = false -> s_caps s = first_caps false (c_caps c) (c_floodfill c)).
Lemma first_made : forall t, made t_port t None (option_map first_addr t).
Proof. intros [[p [h|] [|] b]|]; reflexivity. Qed.
Lemma new_made : forall t a x old, made t_port t x old -> made t_port t (Some a) (new_addr t a old).
Proof. intros [[p [h|] [|] b]|] a x old; cbn; auto. Qed.

Lemma start_inv : forall c t0 s, start c t0 = Some s -> inv c [] s.
Proof.
  intros c t0 s h. unfold start in h.
  assert (e : s = mkS (c_ntcp2 c) (c_ssu2 c) None
        (option_map first_addr (c_ntcp2 c)) (option_map first_addr (c_ssu2 c))
        (first_caps (c_no_transit c) (c_caps c) (c_floodfill c)) false (c_no_transit c) (t0 + 10))
    by (destruct (c_ntcp2 c), (c_ssu2 c); congruence).
  subst s. unfold inv. cbn.
  split; [reflexivity|]. split; [reflexivity|]. split; [reflexivity|]. split; [reflexivity|].
  split; [split; [discriminate | intros []]|].
  split; [apply first_made|]. split; [apply first_made|]. intros _ ->. reflexivity.
Qed.
Lemma in_snoc : forall (ops : list op) o, In OShutdown (ops ++ [o]) <-> In OShutdown ops \/ o = OShutdown.
Proof.
  intros ops o. rewrite in_app_iff. cbn. split; [intros [h | [h | []]]; auto | intros [h | ->]; auto].
Qed.
Lemma step_inv : forall c ops s o, inv c ops s -> inv c (ops ++ [o]) (fst (step s o)).
Proof.
  intros c ops s o (h1 & h2 & h3 & h4 & h5 & h6 & h7 & h8). unfold inv. rewrite learned_app, in_snoc.
  destruct o as [a | | now]; cbn [step fst learned].
  - assert (hs : s_shutting s = true <-> In OShutdown ops \/ OExternal a = OShutdown).
    { rewrite h5. split; [auto | intros [h | h]; [exact h | discriminate h]]. }
    unfold add_external. rewrite h4, h1, h2.
    destruct (learned ops None) as [b|] eqn:el; cbn [negb].
    + destruct (N.eqb_spec b a) as [->|ne]; cbn [negb s_ntcp2 s_ssu2 s_no_transit s_external s_shutting s_addr1 s_addr2 s_caps].
      * repeat (split; try assumption); auto; apply hs.
      * split; [reflexivity|]. split; [reflexivity|]. split; [exact h3|]. split; [reflexivity|].
        split; [exact hs|]. split; [eapply new_made; exact h6|]. split; [eapply new_made; exact h7|]. exact h8.
    + cbn [s_ntcp2 s_ssu2 s_no_transit s_external s_shutting s_addr1 s_addr2 s_caps].
      split; [reflexivity|]. split; [reflexivity|]. split; [exact h3|]. split; [reflexivity|].
      split; [exact hs|]. split; [eapply new_made; exact h6|]. split; [eapply new_made; exact h7|]. exact h8.
  - cbn [s_ntcp2 s_ssu2 s_no_transit s_external s_shutting s_addr1 s_addr2 s_caps].
    split; [exact h1|]. split; [exact h2|]. split; [exact h3|]. split; [exact h4|].
    split; [split; auto|]. split; [exact h6|]. split; [exact h7|]. discriminate.
  - assert (hs : s_shutting s = true <-> In OShutdown ops \/ OPoll now = OShutdown).
    { rewrite h5. split; [auto | intros [h | h]; [exact h | discriminate h]]. }
    unfold publish. destruct (s_timer s <=? now);
      cbn [fst s_ntcp2 s_ssu2 s_no_transit s_external s_shutting s_addr1 s_addr2 s_caps].
    + split; [exact h1|]. split; [exact h2|]. split; [exact h3|]. split; [exact h4|].
      split; [exact hs|]. split; [exact h6|]. split; [exact h7|].
      intros e e'. rewrite e, h3, e'. cbn [orb]. auto.
    + repeat (split; try assumption); apply hs.
Qed.
Lemma run_inv : forall c ops pre s, inv c pre s -> inv c (pre ++ ops) (fst (run s ops)).
Proof.
  intros c. induction ops as [|o ops IH]; intros pre s h.
  - rewrite app_nil_r. exact h.
  - cbn [run]. pose proof (step_inv c pre s o h) as h1. destruct (step s o) as [s1 x]. cbn [fst] in h1.
    specialize (IH (pre ++ [o]) s1 h1). rewrite <- app_assoc in IH. cbn [app] in IH.
    destruct (run s1 ops) as [s2 y]. exact IH.
Qed.
Lemma published_inv : forall c t0 before now i, published c t0 before now i ->
  exists s, inv c before s /\ s_timer s <= now /\
    i = mkI now (s_addr1 s) (s_addr2 s) (if s_shutting s || s_no_transit s then cGR else s_caps s).
Proof.
  intros c t0 before now i (s & s1 & tr & s2 & more & hs & hr & hp & hi).
  apply start_inv in hs. apply (run_inv c before [] s) in hs. cbn [app] in hs. rewrite hr in hs. cbn [fst] in hs.
  exists s1. split; [exact hs|]. cbn [step] in hp. unfold publish in hp.
  destruct (N.leb_spec (s_timer s1) now) as [hl|hl]; apply pair_equal_spec in hp as [_ <-]; [|destruct hi].
  destruct hi as [<- | []]. split; [exact hl | reflexivity].
Qed.

(** * C139: addresses *)

(** A transport that the configuration does not publish is never given away: whatever addresses
    are learned, no router info ever contains a host or port of it. *)
Theorem C139_unpublished_stays_hidden : forall c t0 before now i, published c t0 before now i ->
  (forall t, c_ntcp2 c = Some t -> t_publish t = false -> i_ntcp2 i = Some Hidden) /\
  (forall t, c_ssu2 c = Some t -> t_publish t = false -> i_ssu2 i = Some Hidden).
Proof.
  intros c t0 before now i h.
  apply published_inv in h as (s & (_ & _ & _ & _ & _ & h6 & h7 & _) & _ & ->). cbn [i_ntcp2 i_ssu2].
  split; intros t e ep; [rewrite e in h6 | rewrite e in h7]; cbn [made] in *; rewrite ep in *; assumption.
Qed.
Print Assumptions C139_unpublished_stays_hidden.

(** If the sockets are bound to the configured ports, every router info has exactly the addresses
    it should: of enabled transports, with the configured host or else the external address learned
    last, and the port that is listened on. *)
Theorem C139_right_addresses : forall c t0 before now i,
  fixed_port (c_ntcp2 c) -> fixed_port (c_ssu2 c) -> published c t0 before now i ->
  right_addr (c_ntcp2 c) (learned before None) (i_ntcp2 i) /\
  right_addr (c_ssu2 c) (learned before None) (i_ssu2 i).
Proof.
  intros c t0 before now i p1 p2 h.
  apply published_inv in h as (s & (_ & _ & _ & _ & _ & h6 & h7 & _) & _ & ->). cbn [i_ntcp2 i_ssu2].
  assert (hm : forall t a, fixed_port t -> made t_port t (learned before None) a ->
    right_addr t (learned before None) a).
  { intros [t|] a hf hm; [|exact hm]. unfold made, right_addr, fixed_port in *.
    destruct (t_publish t); [|exact hm]. destruct (t_host t); [exact hm|].
    destruct (learned before None); [rewrite <- hf|]; exact hm. }
  split; apply hm; assumption.
Qed.
Print Assumptions C139_right_addresses.

(** There always is an address (serialising a router info without one panics). *)
Theorem C139_some_address : forall c t0 before now i, published c t0 before now i ->
  i_ntcp2 i <> None \/ i_ssu2 i <> None.
Proof.
  intros c t0 before now i h.
  assert (hc : c_ntcp2 c <> None \/ c_ssu2 c <> None).
  { destruct h as (s & _ & _ & _ & _ & hs & _). unfold start in hs.
    destruct (c_ntcp2 c), (c_ssu2 c); [left | left | right | discriminate hs]; discriminate. }
  apply published_inv in h as (s & (_ & _ & _ & _ & _ & h6 & h7 & _) & _ & ->). cbn [i_ntcp2 i_ssu2].
  assert (hm : forall t e a, made t_port t e a -> t <> None -> a <> None).
  { intros [t|] e a hm ht; [|congruence]. unfold made in hm.
    destruct (t_publish t), (t_host t), e; congruence. }
  destruct hc as [hc|hc]; [left | right]; eapply hm; eauto.
Qed.
Print Assumptions C139_some_address.

(** If the configuration asks for any free port (0), the router listens on the port it got, but
    publishes port 0 as soon as it learns its external address. *)
Theorem C139_any_port_refuted : forall b a caps t0 now, t0 + 10 <= now -> b <> 0 ->
  let c := mkC (Some (mkT 0 None true b)) None caps false false in
  (exists i, published c t0 [OExternal a] now i /\ i_ntcp2 i = Some (Public a 0)) /\
  forall i, published c t0 [OExternal a] now i -> ~ right_addr (c_ntcp2 c) (Some a) (i_ntcp2 i).
Proof.
  intros b a caps t0 now hn hb c. split.
  - eexists. split.
    + eexists _, _, _, _, _. split; [reflexivity|]. split; [reflexivity|]. split.
      * cbn [step]. unfold publish. cbn [add_external s_external s_timer]. apply N.leb_le in hn. rewrite hn. reflexivity.
      * left. reflexivity.
    + reflexivity.
  - intros i h. apply published_inv in h as (s & (_ & _ & _ & _ & _ & h6 & _) & _ & ->).
    cbn in h6. cbn [i_ntcp2]. rewrite h6. cbn. intros e. injection e as e. congruence.
Qed.
Print Assumptions C139_any_port_refuted.

Definition c0 : config := mkC (Some (mkT 25115 None true 25115)) (Some (mkT 2000 None false 2000)) (Some [88; 82]) true false.
Example C139_example : exists s, start c0 0 = Some s /\
  snd (run s [OPoll 10; OExternal 5; OPoll 20; OPoll 910; OExternal 6; OShutdown; OPoll 1900]) =
  [mkI 10 (Some Hidden) (Some Hidden) [88; 82]; mkI 910 (Some (Public 5 25115)) (Some Hidden) [88; 82];
   mkI 1900 (Some (Public 6 25115)) (Some Hidden) [71; 82]].
Proof. eexists. split; reflexivity. Qed.
Example C139_hypotheses : fixed_port (c_ntcp2 c0) /\ fixed_port (c_ssu2 c0) /\
  published c0 0 [OPoll 10; OExternal 5] 910 (mkI 910 (Some (Public 5 25115)) (Some Hidden) [88; 82]).
Proof.
  split; [reflexivity|]. split; [reflexivity|].
  eexists _, _, _, _, _. split; [reflexivity|]. split; [reflexivity|]. split; [reflexivity|]. left. reflexivity.
Qed.

(** * C140: capabilities and times *)

(** Every router info after the router was told to stop, or of a router without transit tunnels,
    says that tunnels are rejected; every other one has the configured capabilities. *)
Theorem C140_capabilities : forall c t0 before now i, published c t0 before now i ->
  (stopping before \/ c_no_transit c = true -> i_caps i = cGR) /\
  (~ stopping before -> c_no_transit c = false ->
   i_caps i = match c_caps c with Some x => x | None => if c_floodfill c then cXf else cL end).
Proof.
  intros c t0 before now i h.
  apply published_inv in h as (s & (_ & _ & h3 & _ & h5 & _ & _ & h8) & _ & ->). cbn [i_caps].
  split.
  - intros [hs | hn].
    + apply h5 in hs. rewrite hs. reflexivity.
    + rewrite h3, hn, orb_true_r. reflexivity.
  - intros hs hn. assert (e : s_shutting s = false).
    { destruct (s_shutting s); [exfalso; apply hs; apply h5; reflexivity | reflexivity]. }
    rewrite e, h3, hn. cbn [orb]. apply h8; assumption.
Qed.
Print Assumptions C140_capabilities.

(** The router info used in handshakes before the first one is published tells the truth, too. *)
Theorem C140_before_the_first : forall c t0 s, start c t0 = Some s ->
  s_caps s = if c_no_transit c then [71]
             else match c_caps c with Some x => x | None => if c_floodfill c then cXf else cL end.
Proof.
  intros c t0 s h. unfold start in h.
  assert (e : s_caps s = first_caps (c_no_transit c) (c_caps c) (c_floodfill c))
    by (destruct (c_ntcp2 c), (c_ssu2 c); try discriminate h; injection h as <-; reflexivity).
  rewrite e. reflexivity.
Qed.
Print Assumptions C140_before_the_first.

(** Its time is the time of publishing. *)
Theorem C140_time : forall c t0 before now i, published c t0 before now i -> i_time i = now.
Proof. intros c t0 before now i h. apply published_inv in h as (s & _ & _ & ->). reflexivity. Qed.
Print Assumptions C140_time.

(** The first router info is published by the first poll at least ten seconds after the start, and
    after each one the next by the first poll at least fifteen minutes later. *)
Lemma quiet_timer : forall ops s, Forall (fun o => forall t, o = OPoll t -> t < s_timer s) ops ->
  snd (run s ops) = [] /\ s_timer (fst (run s ops)) = s_timer s.
Proof.
  induction ops as [|o ops IH]; intros s h; [split; reflexivity|].
  inversion h as [|x y h1 h2]; subst. cbn [run].
  assert (hs : snd (step s o) = [] /\ s_timer (fst (step s o)) = s_timer s).
  { destruct o as [a | | now]; cbn [step].
    - split; [reflexivity|]. unfold add_external. cbn [fst]. destruct (s_external s); [destruct (negb (n =? a))|]; reflexivity.
    - split; reflexivity.
    - unfold publish. specialize (h1 now eq_refl). destruct (N.leb_spec (s_timer s) now); [lia|]. split; reflexivity. }
  destruct (step s o) as [s1 x]. cbn [fst snd] in hs. destruct hs as [-> et].
  rewrite <- et in h2. destruct (IH s1 h2) as [e1 e2]. destruct (run s1 ops) as [s2 z]. cbn [fst snd] in *.
  split; [rewrite e1; reflexivity | congruence].
Qed.
Theorem C140_pace : forall ops s,
  (forall now, s_timer s <= now -> exists i, snd (step s (OPoll now)) = [i] /\ i_time i = now /\
     s_timer (fst (step s (OPoll now))) = now + 15 * 60) /\
  (Forall (fun o => forall t, o = OPoll t -> t < s_timer s) ops ->
     snd (run s ops) = [] /\ s_timer (fst (run s ops)) = s_timer s) /\
  (forall c t0, start c t0 = Some s -> s_timer s = t0 + 10).
Proof.
  intros ops s. split; [|split].
  - intros now h. cbn [step]. unfold publish. apply N.leb_le in h. rewrite h. eexists.
    split; [reflexivity|]. split; reflexivity.
  - apply quiet_timer.
  - intros c t0 h. unfold start in h. destruct (c_ntcp2 c), (c_ssu2 c); try discriminate; injection h as <-; reflexivity.
Qed.
Print Assumptions C140_pace.

(** Two router infos are at least fifteen minutes apart, whatever happens in between. *)
Theorem C140_apart : forall ops s, apart (15 * 60) (map i_time (snd (run s ops))).
Proof.
  assert (gen : forall ops s, apart (15 * 60) (map i_time (snd (run s ops))) /\
    (forall x l, map i_time (snd (run s ops)) = x :: l -> s_timer s <= x)).
  { induction ops as [|o ops IH]; intros s.
    - split; [intros a x y b e; destruct a; discriminate e | intros x l e; discriminate e].
    - cbn [run].
      assert (hs : (snd (step s o) = [] /\ s_timer (fst (step s o)) = s_timer s) \/
                   exists i, snd (step s o) = [i] /\ s_timer s <= i_time i /\
                     s_timer (fst (step s o)) = i_time i + 15 * 60).
      { destruct o as [a | | now]; cbn [step].
        - left. split; [reflexivity|]. unfold add_external. cbn [fst].
          destruct (s_external s); [destruct (negb (n =? a))|]; reflexivity.
        - left. split; reflexivity.
        - unfold publish. destruct (N.leb_spec (s_timer s) now) as [hl|hl].
          + right. eexists. split; [reflexivity|]. split; [exact hl | reflexivity].
          + left. split; reflexivity. }
      destruct (step s o) as [s1 x]. cbn [fst snd] in hs. specialize (IH s1).
      destruct (run s1 ops) as [s2 y]. cbn [snd] in *. destruct IH as [i1 i2].
      destruct hs as [[-> et] | (i & -> & hl & et)]; cbn [app map].
      + split; [exact i1|]. intros z l e. rewrite <- et. eapply i2; exact e.
      + split.
        * intros a u v b e. destruct a as [|w a]; cbn [app] in e.
          -- injection e as <- e. rewrite <- et. eapply i2; exact e.
          -- injection e as _ e. eapply i1; exact e.
        * intros z l e. injection e as <- _. exact hl. }
  intros ops s. apply gen.
Qed.
Print Assumptions C140_apart.
Example C140_apart_example : exists s, start c0 0 = Some s /\
  map i_time (snd (run s [OPoll 3; OPoll 12; OPoll 13; OPoll 911; OPoll 912])) = [12; 912].
Proof. eexists. split; reflexivity. Qed.

(** A router configured as floodfill does not say so if capabilities are configured too: and the
    default configuration has them ("XR").  The capabilities published then lack the "f". *)
Theorem C140_floodfill_refuted : forall c t0 before now i x, c_floodfill c = true -> c_no_transit c = false ->
  c_caps c = Some x -> ~ In 102 x -> published c t0 before now i -> ~ In 102 (i_caps i).
Proof.
  intros c t0 before now i x hf hn hc hx h.
  apply published_inv in h as (s & (_ & _ & h3 & _ & _ & _ & _ & h8) & _ & ->). cbn [i_caps].
  rewrite h3, hn, orb_false_r. destruct (s_shutting s).
  - cbn. intros [e | [e | []]]; discriminate e.
  - rewrite h8 by auto. cbn [first_caps]. rewrite hc. exact hx.
Qed.
Print Assumptions C140_floodfill_refuted.
Example C140_floodfill_example : c_floodfill c0 = true /\ ~ In 102 [88; 82] /\
  published c0 0 [] 10 (mkI 10 (Some Hidden) (Some Hidden) [88; 82]).
Proof.
  split; [reflexivity|]. split; [intros [e | [e | []]]; discriminate e|].
  eexists _, _, _, _, _. split; [reflexivity|]. split; [reflexivity|]. split; [reflexivity|]. left. reflexivity.
Qed.

(** That tunnels are rejected is not told when the router begins to stop, but with the next router
    info: told to stop just after one was published, the router says nothing for fifteen minutes.
    It has then ended (transit tunnels, the last thing waited for, live for ten). *)
Theorem C140_stopping_untold_refuted : forall s now polls s1 i, step s (OPoll now) = (s1, [i]) ->
  Forall (fun t => t < now + 15 * 60) polls ->
  snd (run s1 (OShutdown :: map OPoll polls)) = [].
Proof.
  intros s now polls s1 i h hp.
  assert (et : s_timer s1 = now + 15 * 60).
  { cbn [step] in h. unfold publish in h. destruct (s_timer s <=? now); [|discriminate].
    apply pair_equal_spec in h as [<- _]. reflexivity. }
  apply quiet_timer. rewrite et. constructor; [discriminate|].
  apply Forall_forall. intros o ho t ->. apply in_map_iff in ho as (t' & e & hi). injection e as ->.
  rewrite Forall_forall in hp. exact (hp _ hi).
Qed.
Print Assumptions C140_stopping_untold_refuted.
Example C140_stopping_example : exists s, start c0 0 = Some s /\
  snd (run s [OPoll 10; OShutdown; OPoll 60; OPoll 610; OPoll 909]) = [mkI 10 (Some Hidden) (Some Hidden) [88; 82]].
Proof. eexists. split; reflexivity. Qed.
