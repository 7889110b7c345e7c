(** C131-C134: which ports the port mapper opens on the gateway, what it leaves behind, which
    addresses it tells the router, and what it tries. *)
From Coq Require Import List NArith Bool Lia.
From Verif Require Import PmapModel PmapSpec PmapProofs PmapProofs2.
Import ListNotations.
Open Scope N_scope.

(** a router on ports 1001 (NTCP2) and 1002 (SSU2), and gateways that answer at once *)
Definition ports0 : ports := mkPorts (Some 1001) (Some 1002).
Definition nat_good : nat_start :=
  mkNat (After 0 (Some tt)) (After 0 (Some RTcp)) (After 0 (Some RTcp)) (After 0 (Some (RGateway 7))).
Definition nat_silent : nat_start := mkNat Never Never Never Never.
Definition upnp_good : upnp_start :=
  mkUpnp true true (After 0 (Some tt)) (After 0 (Some tt)) (After 0 (Some (V4 7))).
Definition both : config := mkConfig true true.
Definition only_nat : config := mkConfig true false.
Definition only_upnp : config := mkConfig false true.

(** * C131: the ports *)

(** Whatever the gateway does, only ports of enabled transports are ever mapped. *)
Theorem C131_only_own_ports : forall cfg ps now n u evs tr t p port life,
  run cfg ps now n u evs = Some (tr, t) -> In (AMap p port life) tr ->
  p_ntcp2 ps = Some port \/ p_ssu2 ps = Some port.
Proof.
  intros cfg ps now n u evs tr t p port life h i.
  assert (hf : Forall (fun x => match x with AMap _ q _ => p_ntcp2 ps = Some q \/ p_ssu2 ps = Some q
                                | _ => True end) tr).
  { eapply run_every; [..|exact h]; try (intros; exact I).
    - intros _ q e. exact e.
    - intros _ q m [[_ e] | [_ e]]; auto. }
  rewrite Forall_forall in hf. exact (hf _ i).
Qed.
Print Assumptions C131_only_own_ports.

(** With NAT-PMP off, every mapping asked for is one the router needs: NTCP2's port for TCP,
    SSU2's port for UDP. *)
Theorem C131_upnp_protocols : forall cfg ps now n u evs tr t p port life,
  c_nat_pmp cfg = false ->
  run cfg ps now n u evs = Some (tr, t) -> In (AMap p port life) tr -> needed ps p port.
Proof.
  intros cfg ps now n u evs tr t p port life hc h i.
  assert (hf : Forall (fun x => match x with AMap q m _ => needed ps q m | _ => True end) tr).
  { eapply run_every; [..|exact h]; try (intros; exact I).
    - congruence.
    - intros _ q m e. exact e. }
  rewrite Forall_forall in hf. exact (hf _ i).
Qed.
Print Assumptions C131_upnp_protocols.

(** Once UPnP is waiting for events, everything needed has been asked for, without an end. *)
Theorem C131_upnp_all_needed : forall cfg ps now n u tr a ta c p port,
  run cfg ps now n u [] = Some (tr, TUpnp a ta c) -> needed ps p port -> In (AMap p port 0) tr.
Proof.
  intros cfg ps now n u tr a ta c p port h hn.
  apply run_inv in h as (x & t0 & b & es & er & ->). injection er as <- ->. rewrite app_nil_r.
  assert (hu : forall y, upnp_run ps now u = (y, TUpnp a ta c) -> In (AMap p port 0) y).
  { clear es x. intros y h. unfold upnp_run in h.
    destruct (u_local u); cbn [negb] in h; [|discriminate].
    destruct (u_gateway u); cbn [negb] in h; [|discriminate].
    destruct (upnp_map TCP (p_ntcp2 ps) (u_ntcp2 u)) as [a1 r1] eqn:e1.
    destruct (upnp_map UDP (p_ssu2 ps) (u_ssu2 u)) as [a2 r2] eqn:e2.
    assert (hi : In (AMap p port 0) (a1 ++ a2)).
    { apply in_or_app. destruct hn as [[-> e] | [-> e]]; [left | right].
      - rewrite e in e1. apply pair_equal_spec in e1 as [<- _]. left. reflexivity.
      - rewrite e in e2. apply pair_equal_spec in e2 as [<- _]. left. reflexivity. }
    destruct r1; [..|discriminate]; (destruct r2; [..|discriminate]);
    (destruct (attempt (u_addr u)) as [[z|z]| |]; try discriminate;
     apply pair_equal_spec in h as [<- _]; rewrite ?app_assoc;
     repeat (apply in_or_app; left; try exact hi)). }
  assert (hs : forall y, switch cfg ps now u = (y, TUpnp a ta c) -> In (AMap p port 0) y).
  { intros y h. unfold switch in h. destruct (c_upnp cfg); cbn [negb] in h; [auto | discriminate]. }
  unfold start in es. destruct (negb (c_upnp cfg) && negb (c_nat_pmp cfg)); [discriminate|].
  destruct (c_nat_pmp cfg); [|auto]. unfold nat_run in es.
  destruct (switch cfg ps now u) as [y ty].
  destruct (attempt (n_client n)); [|apply pair_equal_spec in es as [<- ->]; auto|discriminate].
  destruct (nat_map (p_ntcp2 ps) (n_ntcp2 n)) as [a1 [x1| |]]; [| |discriminate];
    [|apply pair_equal_spec in es as [<- ->]; apply in_or_app; right; auto].
  destruct (nat_map (p_ssu2 ps) (n_ssu2 n)) as [a2 [x2| |]]; [| |discriminate];
    [|apply pair_equal_spec in es as [<- ->]; do 2 (apply in_or_app; right); auto].
  destruct (nat_address (n_addr n)) as [[z|]| |]; try discriminate;
    apply pair_equal_spec in es as [<- ->]; apply in_or_app; right; auto.
Qed.
Print Assumptions C131_upnp_all_needed.

Example C131_upnp_example :
  run only_upnp ports0 0 nat_silent upnp_good [] =
  Some ([AMap TCP 1001 0; AMap UDP 1002 0; AAsk 0; AAddress 7], TUpnp (Some 7) 0 false).
Proof. reflexivity. Qed.

(** NAT-PMP never asks for a UDP mapping.  So the port of SSU2, though enabled and the gateway
    granting everything, is not forwarded: the claim "every mapping needed is asked for" is false
    with NAT-PMP, the first choice. *)
Theorem C131_nat_pmp_udp_refuted :
  (forall cfg ps now n u evs tr t p port life, c_upnp cfg = false ->
     run cfg ps now n u evs = Some (tr, t) -> In (AMap p port life) tr -> p = TCP) /\
  (exists tr, run both ports0 0 nat_good upnp_good [] = Some (tr, TNat 7 0 0) /\
     needed ports0 UDP 1002 /\ ~ exists life, In (AMap UDP 1002 life) tr).
Proof.
  split.
  - intros cfg ps now n u evs tr t p port life hc h i.
    assert (hf : Forall (fun x => match x with AMap q _ _ => q = TCP | _ => True end) tr).
    { eapply run_every; [..|exact h]; try (intros; exact I).
      - intros _ q e. reflexivity.
      - congruence. }
    rewrite Forall_forall in hf. exact (hf _ i).
  - eexists. split; [reflexivity|]. split; [right; split; reflexivity|].
    intros [life i]. cbn in i. intuition discriminate.
Qed.
Print Assumptions C131_nat_pmp_udp_refuted.

(** NAT-PMP's mappings last an hour, and from ten seconds before that the loop can ask again,
    for the port of every enabled transport. *)
Theorem C131_nat_pmp_renewed : forall ps addr ta tm now f1 f2 a t port,
  (forall b l, nat_map (p_ntcp2 ps) f1 <> (b, Crashed) /\ nat_map (p_ssu2 ps) f2 <> (l, Crashed)) ->
  (may (TNat addr ta tm) now (EMapping f1 f2) = true <-> tm + (3600 - 10) <= now) /\
  (step ps (TNat addr ta tm) now (EMapping f1 f2) = (a, t) ->
   p_ntcp2 ps = Some port \/ p_ssu2 ps = Some port -> In (AMap TCP port 3600) a /\ t = TNat addr ta now).
Proof.
  intros ps addr ta tm now f1 f2 a t port hc. split.
  - cbn [may]. apply N.leb_le.
  - intros h hp. cbn [step] in h.
    destruct (nat_map (p_ntcp2 ps) f1) as [a1 r1] eqn:e1.
    destruct (nat_map (p_ssu2 ps) f2) as [a2 r2] eqn:e2.
    assert (hi : In (AMap TCP port 3600) (a1 ++ a2)).
    { apply in_or_app. destruct hp as [e | e]; [left | right].
      - rewrite e in e1. apply pair_equal_spec in e1 as [<- _]. left. reflexivity.
      - rewrite e in e2. apply pair_equal_spec in e2 as [<- _]. left. reflexivity. }
    destruct (hc a1 a2) as [n1 n2].
    destruct r1; [destruct r2|destruct r2|]; try congruence;
      apply pair_equal_spec in h as [<- <-]; split; auto.
Qed.
Print Assumptions C131_nat_pmp_renewed.
Example C131_nat_pmp_renewed_example :
  run only_nat ports0 0 nat_good upnp_good
    [(3590, EMapping (After 0 (Some RTcp)) Never); (3700, EShutdown)] =
  Some ([AMap TCP 1001 3600; AMap TCP 1002 3600; AAsk 0; AAddress 7;
         AMap TCP 1001 3600; AMap TCP 1002 3600; AAck], TEnded).
Proof. reflexivity. Qed.

(** * C132: shutting down *)

(** Shutting the port mapper down always returns: in every state a run can reach, and at once. *)
Theorem C132_shutdown_returns : forall cfg ps now n u evs tr t later,
  run cfg ps now n u evs = Some (tr, t) -> shutdown_returns ps t later = true.
Proof.
  intros cfg ps now n u evs tr t later _.
  destruct t as [addr ta tm | addr ta [|] | |]; try reflexivity.
  cbn [shutdown_returns step]. rewrite existsb_app. cbn [existsb]. rewrite orb_true_r. reflexivity.
Qed.
Print Assumptions C132_shutdown_returns.

(** A port mapper that was shut down, or ended by itself, has left nothing on the gateway that
    does not end by itself: every mapping asked for without an end was removed afterwards. *)
Theorem C132_nothing_left : forall cfg ps now n u evs tr,
  run cfg ps now n u evs = Some (tr, TEnded) -> forall p port, ~ stays tr p port.
Proof. intros cfg ps now n u evs tr h. apply run_inv0 in h. exact h. Qed.
Print Assumptions C132_nothing_left.

(** While it is running normally a shutdown ends it and is answered. *)
Theorem C132_shutdown_ends : forall ps t now ev, may t now ev = true -> ev = EShutdown ->
  (forall a ta, t <> TUpnp a ta true) ->
  exists a, step ps t now ev = (a, TEnded) /\ In AAck a.
Proof.
  intros ps t now ev hm -> hc. destruct t as [addr ta tm | addr ta [|] | |]; try discriminate hm.
  - eexists. split; [reflexivity | left; reflexivity].
  - exfalso. exact (hc _ _ eq_refl).
  - eexists. split; [reflexivity|]. apply in_or_app. right. left. reflexivity.
Qed.
Print Assumptions C132_shutdown_ends.

Example C132_example :
  run only_upnp ports0 0 nat_silent upnp_good [(300, EAddress Never (After 1 (Some (V4 8)))); (301, EShutdown)] =
  Some ([AMap TCP 1001 0; AMap UDP 1002 0; AAsk 0; AAddress 7; AAsk 300; AAddress 8;
         AUnmap UDP 1002; AUnmap TCP 1001; AAck], TEnded).
Proof. reflexivity. Qed.

(** A gateway that maps the first port and refuses the second (one error is enough) panics the
    port mapper.  The first port then stays mapped for ever: nothing that happens later, a
    shutdown included, removes it. *)
Theorem C132_refused_mapping_refuted : forall ps a b now n u,
  p_ntcp2 ps = Some a -> p_ssu2 ps = Some b -> u_local u = true -> u_gateway u = true ->
  u_ntcp2 u = After 0 (Some tt) -> u_ssu2 u = After 0 None ->
  exists tr, run only_upnp ps now n u [] = Some (tr, TPanicked) /\ stays tr TCP a /\
    forall later ev, step ps TPanicked later ev = ([], TPanicked).
Proof.
  intros ps a b now n u ea eb el eg e1 e2.
  exists [AMap TCP a 0; AMap UDP b 0]. split; [|split].
  - unfold run, start, upnp_run. cbn [only_upnp c_upnp c_nat_pmp negb andb].
    rewrite el, eg, ea, eb. cbn [negb upnp_map]. rewrite e1, e2. reflexivity.
  - exists [], [AMap UDP b 0]. split; [reflexivity|]. intros [e | []]. discriminate e.
  - reflexivity.
Qed.
Print Assumptions C132_refused_mapping_refuted.
Example C132_refused_example :
  run only_upnp ports0 0 nat_silent
    (mkUpnp true true (After 0 (Some tt)) (After 0 None) Never) [] =
  Some ([AMap TCP 1001 0; AMap UDP 1002 0], TPanicked).
Proof. reflexivity. Qed.

(** If the handle is dropped without a shutdown, UPnP removes its mappings; but the loop goes on
    and panics in its next round. *)
Theorem C132_dropped : forall cfg ps now n u evs tr addr ta,
  run cfg ps now n u evs = Some (tr, TUpnp addr ta true) ->
  (forall p port, ~ stays tr p port) /\
  forall later ev, step ps (TUpnp addr ta true) later ev = ([], TPanicked).
Proof.
  intros cfg ps now n u evs tr addr ta h. split; [|reflexivity]. apply run_inv0 in h. exact h.
Qed.
Print Assumptions C132_dropped.
Example C132_dropped_example :
  run only_upnp ports0 0 nat_silent upnp_good [(5, EDropped)] =
  Some ([AMap TCP 1001 0; AMap UDP 1002 0; AAsk 0; AAddress 7; AUnmap UDP 1002; AUnmap TCP 1001],
        TUpnp (Some 7) 0 true).
Proof. reflexivity. Qed.

(** * C133: the external address *)

(** The router is told an address only when it is new: never the same one twice in a row. *)
Theorem C133_only_changes : forall cfg ps now n u evs tr t,
  run cfg ps now n u evs = Some (tr, t) -> no_repeat (addresses tr).
Proof. intros cfg ps now n u evs tr t h. apply run_told in h as [h _]. exact h. Qed.
Print Assumptions C133_only_changes.

(** And every address it is told is one the gateway gave. *)
Theorem C133_from_gateway : forall cfg ps now n u evs tr t a,
  run cfg ps now n u evs = Some (tr, t) -> In (AAddress a) tr -> said a n u evs.
Proof.
  intros cfg ps now n u evs tr t a h i.
  assert (hf : Forall (fun x => match x with AAddress y => said y n u evs | _ => True end) tr).
  { eapply run_every; [..|exact h]; try (intros; exact I).
    - intros _ q _. exact I.
    - intros _ q m _. exact I.
    - auto. }
  rewrite Forall_forall in hf. exact (hf _ i).
Qed.
Print Assumptions C133_from_gateway.

(** Whatever IPv4 address the gateway gives in time while the loop runs is then the one the
    router was told last. *)
Theorem C133_latest : forall cfg ps now n u evs tr t s k a,
  (k < 3)%nat ->
  run cfg ps now n u (evs ++ [(s, EAddress (After k (Some (RGateway a))) (After k (Some (V4 a))))]) = Some (tr, t) ->
  (forall x y, t <> TUpnp x y true) -> t <> TPanicked ->
  exists l, addresses tr = l ++ [a].
Proof.
  intros cfg ps now n u evs tr t s k a hk h hc hp.
  pose proof (run_told _ _ _ _ _ _ _ _ h) as [_ hl].
  apply run_inv in h as (x & t0 & b & _ & er & _).
  assert (hs : forall es t1 now1 b1, rounds ps t1 now1 (es ++ [(s, EAddress (After k (Some (RGateway a))) (After k (Some (V4 a))))]) = Some (b1, t) ->
    exists t2 c, may t2 s (EAddress (After k (Some (RGateway a))) (After k (Some (V4 a)))) = true /\
      step ps t2 s (EAddress (After k (Some (RGateway a))) (After k (Some (V4 a)))) = (c, t)).
  { induction es as [|[s' ev] es IH]; intros t1 now1 b1 hr.
    - cbn [app] in hr. apply rounds_cons in hr as (_ & hm & c & t2 & b2 & es' & er' & _).
      injection er' as _ ->. eauto.
    - cbn [app] in hr. apply rounds_cons in hr as (_ & _ & c & t2 & b2 & _ & er' & _). eauto. }
  apply hs in er as (t2 & c & hm & e).
  assert (h1 : nat_address (After k (Some (RGateway a))) = Got (Some a)).
  { unfold nat_address. assert (e0 : attempt (After k (Some (RGateway a))) = Got (RGateway a))
      by (apply attempt_got; eauto). rewrite e0. reflexivity. }
  assert (h2 : attempt (After k (Some (V4 a))) = Got (V4 a)) by (apply attempt_got; eauto).
  apply latest_split. destruct t2 as [addr ta tm | addr ta [|] | |]; cbn [step] in e; try discriminate hm.
  - rewrite h1 in e. destruct (N.eqb_spec a addr) as [->|ne]; apply pair_equal_spec in e as [_ <-]; exact hl.
  - apply pair_equal_spec in e as [_ <-]. congruence.
  - rewrite h2 in e. destruct addr as [y|].
    + destruct (N.eqb_spec a y) as [->|ne]; apply pair_equal_spec in e as [_ <-]; exact hl.
    + apply pair_equal_spec in e as [_ <-]; exact hl.
Qed.
Print Assumptions C133_latest.

(** With NAT-PMP, two questions for the address are at least five minutes apart. *)
Theorem C133_nat_pmp_pace : forall ps evs addr ta tm now tr t,
  rounds ps (TNat addr ta tm) now evs = Some (tr, t) -> apart (5 * 60) (ta :: asks tr).
Proof. exact nat_apart. Qed.
Print Assumptions C133_nat_pmp_pace.
Example C133_nat_example :
  run both ports0 0 nat_good upnp_good
    [(300, EAddress (After 0 (Some (RGateway 7))) Never); (600, EAddress (After 2 (Some (RGateway 9))) Never);
     (900, EAddress Never Never)] =
  Some ([AMap TCP 1001 3600; AMap TCP 1002 3600; AAsk 0; AAddress 7; AAsk 300; AAsk 600; AAddress 9; AAsk 900],
        TNat 9 900 0).
Proof. reflexivity. Qed.

(** With UPnP the timer is not set again after it has fired the first time.  From then on the
    gateway can be asked any number of times at one moment: the loop no longer waits. *)
Theorem C133_upnp_pace_refuted : forall ps addr ta now m, ta + 5 * 60 <= now ->
  exists evs tr t, length evs = m /\ rounds ps (TUpnp addr ta false) now evs = Some (tr, t) /\
    asks tr = repeat now m.
Proof.
  intros ps addr ta now m h. exists (repeat (now, EAddress Never Never) m).
  assert (hr : rounds ps (TUpnp addr ta false) now (repeat (now, EAddress Never Never) m) =
               Some (repeat (AAsk now) m, TUpnp addr ta false)).
  { induction m as [|m IH]; [reflexivity|].
    assert (hm : (now <=? now) && may (TUpnp addr ta false) now (EAddress Never Never) = true).
    { apply andb_true_iff. split; [apply N.leb_refl|]. cbn [may]. apply N.leb_le. exact h. }
    cbn [repeat rounds]. rewrite hm. cbn [step attempt NUM_RETRIES with_retries]. rewrite IH. reflexivity. }
  eexists _, _. split; [apply repeat_length|]. split; [exact hr|].
  clear. induction m as [|m IH]; [reflexivity|]. cbn [repeat asks]. rewrite IH. reflexivity.
Qed.
Print Assumptions C133_upnp_pace_refuted.
Example C133_upnp_pace_example : exists evs tr t, length evs = 1000%nat /\
  rounds ports0 (TUpnp (Some 7) 0 false) 300 evs = Some (tr, t) /\ asks tr = repeat 300 1000.
Proof. apply C133_upnp_pace_refuted. lia. Qed.

(** * C134: what is tried *)

(** With both protocols off nothing is ever done. *)
Theorem C134_off : forall ps now n u evs tr t,
  run (mkConfig false false) ps now n u evs = Some (tr, t) -> tr = [] /\ t = TEnded.
Proof.
  intros ps now n u evs tr t h. apply run_inv in h as (a & t0 & b & es & er & ->).
  apply pair_equal_spec in es as [<- <-]. apply rounds_over in er as [-> ->]; auto.
Qed.
Print Assumptions C134_off.

(** A protocol that is off is never used: no loop of it runs, and mappings are only asked for the
    way the other one does (NAT-PMP for an hour, UPnP without an end). *)
Theorem C134_only_enabled : forall cfg ps now n u evs tr t,
  run cfg ps now n u evs = Some (tr, t) ->
  (c_nat_pmp cfg = false -> (forall a x y, t <> TNat a x y) /\
     forall p q l, In (AMap p q l) tr -> l = 0) /\
  (c_upnp cfg = false -> (forall a x y, t <> TUpnp a x y) /\
     forall p q l, In (AMap p q l) tr -> l = 3600).
Proof.
  intros cfg ps now n u evs tr t h.
  assert (ht : (c_nat_pmp cfg = false -> nat_task t = false) /\ (c_upnp cfg = false -> upnp_task t = false)).
  { apply run_inv in h as (a & t0 & b & es & er & _). apply start_task in es.
    clear - es er. revert t0 now b es er. induction evs as [|[s ev] rest IH]; intros t0 now b es er.
    - injection er as _ <-. exact es.
    - apply rounds_cons in er as (_ & _ & a1 & t1 & b1 & e1 & er & _). apply step_task in e1 as [s1 s2].
      eapply IH; [|exact er]. destruct es as [h1 h2]. split; auto. }
  destruct ht as [h1 h2]. split; intros hc.
  - split; [intros a x y ->; specialize (h1 hc); discriminate h1|].
    intros p q l i.
    assert (hf : Forall (fun x => match x with AMap _ _ l => l = 0 | _ => True end) tr).
    { eapply run_every; [..|exact h]; try (intros; exact I).
      - congruence.
      - intros _ a m _. reflexivity. }
    rewrite Forall_forall in hf. exact (hf _ i).
  - split; [intros a x y ->; specialize (h2 hc); discriminate h2|].
    intros p q l i.
    assert (hf : Forall (fun x => match x with AMap _ _ l => l = 3600 | _ => True end) tr).
    { eapply run_every; [..|exact h]; try (intros; exact I).
      - intros _ m _. reflexivity.
      - congruence. }
    rewrite Forall_forall in hf. exact (hf _ i).
Qed.
Print Assumptions C134_only_enabled.

(** What an operation on the gateway comes to: a value that arrives within fifteen seconds is
    used; a gateway that says nothing for that long is given up. *)
Theorem C134_attempts : forall A (f : fut A),
  (forall a, attempt f = Got a <-> exists k, (k < 3)%nat /\ f = After k (Some a)) /\
  (f = Never \/ (exists k r, (3 <= k)%nat /\ f = After k r) -> attempt f = GaveUp).
Proof.
  intros A f. split; [intros a; apply attempt_got|]. intros h. apply attempt_gave_up. tauto.
Qed.
Print Assumptions C134_attempts.
Example C134_attempts_example : attempt (After 2 (Some 5)) = Got 5 /\ attempt (After 3 (Some 5)) = GaveUp.
Proof. split; reflexivity. Qed.

(** A NAT-PMP gateway that does not answer is replaced by UPnP, if that is enabled: the run goes
    on as it would with UPnP alone. *)
Theorem C134_silence_falls_back : forall ps now n u evs, n_client n = Never ->
  run both ps now n u evs = run only_upnp ps now n u evs.
Proof.
  intros ps now n u evs h. unfold run, start, nat_run, switch. cbn [both only_upnp c_upnp c_nat_pmp negb andb].
  rewrite h. reflexivity.
Qed.
Print Assumptions C134_silence_falls_back.
Example C134_silence_example :
  run both ports0 0 nat_silent upnp_good [] =
  Some ([AMap TCP 1001 0; AMap UDP 1002 0; AAsk 0; AAddress 7], TUpnp (Some 7) 0 false).
Proof. reflexivity. Qed.

(** But a gateway that answers with an error (within the first ten seconds) panics the port
    mapper: the operation is not tried again, and UPnP, though enabled and working, is never
    tried. *)
Theorem C134_error_falls_back_refuted :
  (forall A (f : fut A) k, (k < 2)%nat -> f = After k None -> attempt f = Crashed) /\
  (forall cfg ps now n u k, (k < 2)%nat -> c_nat_pmp cfg = true -> n_client n = After k None ->
     run cfg ps now n u [] = Some ([], TPanicked)).
Proof.
  split.
  - intros A f k hk e. apply attempt_crashed. eauto.
  - intros cfg ps now n u k hk hc e. unfold run, start, nat_run. rewrite hc, andb_false_r, e.
    assert (ha : attempt (@After unit k None) = Crashed) by (apply attempt_crashed; eauto).
    rewrite ha. reflexivity.
Qed.
Print Assumptions C134_error_falls_back_refuted.
Example C134_error_example :
  run both ports0 0 (mkNat (After 0 None) Never Never Never) upnp_good [] = Some ([], TPanicked).
Proof. reflexivity. Qed.
