(** Properties C74-C79: routing paths. *)
From Coq Require Import List NArith Bool Lia.
From Verif Require Import ListUtil NMap RpathModel RpathSpec RpathProofs RpathProofs2 RpathProofs3.
Import ListNotations.
Open Scope N_scope.

(** ** C74: a path leads through tunnels that exist *)
Theorem C74_tunnels_known :
  forall inb outb exps ops h outs op i o q,
    hrun (Some (new_handle inb outb exps)) ops = (Some h, outs) ->
    snd (hstep (Some h) op) = Got (Some (i, o)) q ->
    (exists x, announced i x (told [] (at_birth inb outb exps) ops)) /\
    out_state o (told [] (at_birth inb outb exps) ops) <> None.
Proof. exact only_announced. Qed.
Print Assumptions C74_tunnels_known.

(** The handle starts with our tunnels 7 and 8 and the remote's tunnel 5, uses 5 and 7, hears that
    7 has expired and that there is a tunnel 9, and goes on with 8 or 9. *)
Definition c74_ops : list hop :=
  [HPath (one_reading 1000 0 0 true); HEvent (OutExpired 7); HEvent (OutBuilt 9); HPoll 2000;
   HPath (one_reading 3000 0 0 true)].
Example C74_ex :
  snd (hrun (Some (new_handle [(5, 900000)] [7; 8] [])) c74_ops) =
    [Got (Some (5, 7)) false; Quiet; Quiet; Quiet; Got (Some (5, 8)) false] /\
  out_state 7 (told [] (at_birth [(5, 900000)] [7; 8] []) c74_ops) = None /\
  out_state 8 (told [] (at_birth [(5, 900000)] [7; 8] []) c74_ops) = Some None.
Proof. vm_compute. auto. Qed.

(** ** C75: the remote's tunnel in a path has time left *)
(** Right after a poll, and as long as no call for another path came back empty-handed. *)
Theorem C75_fresh_after_poll_partial :
  forall inb outb exps ops h outs now h' d i o q,
    hrun (Some (new_handle inb outb exps)) ops = (Some h, outs) -> recreated ops outs ->
    hstep (Some h) (HPoll now) = (Some h', Quiet) -> now <= dr_now2 d ->
    snd (hstep (Some h') (HPath d)) = Got (Some (i, o)) q ->
    exists x, announced i x (told [] (at_birth inb outb exps) (ops ++ [HPoll now])) /\ now + 30000 < x.
Proof. exact fresh_after_poll. Qed.
Print Assumptions C75_fresh_after_poll_partial.

Example C75_ex :
  exists h h',
    hrun (Some (new_handle [(5, 100000); (6, 200000)] [7] [])) [HPath (one_reading 1000 0 0 true)] = (Some h, [Got (Some (5, 7)) false]) /\
    recreated [HPath (one_reading 1000 0 0 true)] [Got (Some (5, 7)) false] /\
    hstep (Some h) (HPoll 80000) = (Some h', Quiet) /\
    snd (hstep (Some h') (HPath (one_reading 80000 0 0 true))) = Got (Some (6, 7)) false.
Proof. eexists; eexists. vm_compute. repeat split. Qed.

(** After packet loss another path is asked for; the remote's only tunnel has 20 seconds left, so
    there is none.  The old path stays and its timer does not: it is handed out after the remote's
    tunnel has expired, however often the handle is polled. *)
Definition c75_ops : list hop :=
  [HPath (one_reading 1000 0 0 true); HRecreate (one_reading 80000 0 0 true)].
Theorem C75_stale_path_refuted :
  exists inb outb ops h outs,
    hrun (Some (new_handle inb outb [])) ops = (Some h, outs) /\
    (forall i x, announced i x (told [] (at_birth inb outb []) ops) -> x = 100000) /\
    forall polls, (forall op, In op polls -> exists now, op = HPoll now) -> forall d,
      exists h', hrun (Some h) polls = (Some h', map (fun _ => Quiet) polls) /\
                 hstep (Some h') (HPath d) = (Some h', Got (Some (5, 7)) false).
Proof.
  exists [(5, 100000)], [7], c75_ops. eexists; eexists.
  split; [vm_compute; reflexivity|]. split.
  - intros i x (ts & Hts & Hin). vm_compute in Hts. destruct Hts as [H|[H|[]]]; [|discriminate].
    injection H as <-. destruct Hin as [Hin|[]]. now injection Hin as _ <-.
  - set (h := {| h_tunnels := _ |}).
    assert (Hp : forall now, hstep (Some h) (HPoll now) = (Some h, Quiet)) by reflexivity.
    intros polls Hpolls d. exists h. split; [|reflexivity].
    induction polls as [|op polls IH]; [reflexivity|]. cbn [hrun map].
    destruct (Hpolls op (or_introl eq_refl)) as [now ->]. rewrite Hp, IH; [reflexivity|].
    intros op' H'. apply Hpolls. now right.
Qed.
Print Assumptions C75_stale_path_refuted.

(** ** C76: at most three lookups in a row, one at a time *)
Theorem C76_three_lookups :
  forall inb outb exps ops h outs,
    hrun (Some (new_handle inb outb exps)) ops = (Some h, outs) ->
    let l := looks (mkL 0 false None) ops outs in
    asked l <= 3 /\
    (forall op p, snd (hstep (Some h) op) = Got p true -> outstanding l = false /\ asked l < 3) /\
    (forall now, hstep (Some h) (HPoll now) = (None, GaveUp) <-> asked l = 3 /\ answer l = Some false).
Proof. exact three_lookups. Qed.
Print Assumptions C76_three_lookups.

(** Three lookups that fail: the handle gives up. *)
Definition c76_try (t : N) : list hop := [HPath (one_reading t 0 0 true); HAnswer false; HPoll t].
Example C76_ex :
  snd (hrun (Some (new_handle [] [7] [])) (c76_try 1000 ++ c76_try 2000 ++ c76_try 3000)) =
    [Got None true; Quiet; Quiet; Got None true; Quiet; Quiet; Got None true; Quiet; GaveUp] /\
  asked (looks (mkL 0 false None) (c76_try 1000) [Got None true; Quiet; Quiet]) = 1 /\
  outstanding (looks (mkL 0 false None) (c76_try 1000) [Got None true; Quiet; Quiet]) = false.
Proof. vm_compute. auto. Qed.

(** ** C77: with tunnels at both ends there is a path *)
(** Asked for a path, and asked for another one after packet loss. *)
Theorem C77_path_available_partial :
  forall inbp inb outb exps ops h outs now,
    hrun (Some (new_handle inb outb exps)) ops = (Some h, outs) ->
    ids_apart inbp (told [] (at_birth inb outb exps) ops) -> polled_by now ops ->
    (exists o, out_state o (told [] (at_birth inb outb exps) ops) = Some None \/
               exists y, out_state o (told [] (at_birth inb outb exps) ops) = Some (Some y) /\ now + 30000 < y) ->
    (exists i x, lease_state i (told [] (at_birth inb outb exps) ops) = Some x /\ now + 30000 < x) ->
    forall r1 r2 room, exists p,
      snd (hstep (Some h) (HPath (one_reading now r1 r2 room))) = Got (Some p) false /\
      (exists p', snd (hstep (Some h) (HRecreate (one_reading now r1 r2 room))) = Got (Some p') false).
Proof. exact path_available. Qed.
Print Assumptions C77_path_available_partial.

(** Tunnel 5 has failed, 6 was announced later; our tunnel 7 is about to expire. *)
Definition c77_ops : list hop :=
  [HPath (one_reading 1000 0 0 true); HRecreate (one_reading 2000 0 0 true);
   HEvent (InBuilt [(6, 500000)]); HEvent (OutExpiring 7 92000); HPoll 3000].
Example C77_ex :
  exists h outs,
    hrun (Some (new_handle [(5, 100000)] [7] [])) c77_ops = (Some h, outs) /\
    ids_apart (fun t => t <? 7) (told [] (at_birth [(5, 100000)] [7] []) c77_ops) /\ polled_by 4000 c77_ops /\
    (out_state 7 (told [] (at_birth [(5, 100000)] [7] []) c77_ops) = Some (Some 92000) /\ 4000 + 30000 < 92000) /\
    (lease_state 6 (told [] (at_birth [(5, 100000)] [7] []) c77_ops) = Some 500000 /\ 4000 + 30000 < 500000).
Proof.
  eexists; eexists. split; [vm_compute; reflexivity|]. split.
  - intros e He. vm_compute in He.
    destruct He as [<-|[<-|[<-|[<-|[]]]]]; cbn; try reflexivity.
    + intros l [<-|[]]. reflexivity.
    + intros l [<-|[]]. reflexivity.
  - split.
    + intros t Ht. cbn in Ht. destruct Ht as [E|[E|[E|[E|[E|[]]]]]]; try discriminate. injection E as <-. lia.
    + repeat split; try lia; vm_compute; reflexivity.
Qed.

(** Tunnel ids are drawn at each end.  A lease of the remote that bears the id of our tunnel
    replaces it in the handle: both ends have tunnels for ten more minutes and there is no path,
    however the numbers are drawn. *)
Theorem C77_shared_id_refuted :
  exists inb outb ops h outs now,
    hrun (Some (new_handle inb outb [])) ops = (Some h, outs) /\
    out_state 7 (told [] (at_birth inb outb []) ops) = Some None /\
    lease_state 5 (told [] (at_birth inb outb []) ops) = Some 600000 /\ now + 30000 < 600000 /\
    forall r1 r2 room, snd (hstep (Some h) (HPath (one_reading now r1 r2 room))) = Got None false.
Proof.
  exists [(5, 600000)], [7], [HEvent (InBuilt [(7, 600000)]); HPoll 1000]. eexists; eexists. exists 1000.
  split; [vm_compute; reflexivity|]. split; [vm_compute; reflexivity|]. split; [vm_compute; reflexivity|].
  split; [lia|]. intros r1 r2 room. reflexivity.
Qed.
Print Assumptions C77_shared_id_refuted.

(** ** C78: asking for a path does not panic *)
(** When the clock stands still during a call. *)
Theorem C78_no_panic_partial :
  forall inb outb exps ops h outs op,
    hrun (Some (new_handle inb outb exps)) ops = (Some h, outs) ->
    match op with HPath d | HRecreate d => dr_now3 d <= dr_now2 d | _ => True end ->
    snd (hstep (Some h) op) <> Panicked.
Proof.
  intros inb outb exps ops h outs op _ Hop.
  assert (Hm : forall d x, dr_now3 d <= dr_now2 d -> make_path d x <> PPanic).
  { intros d x Hd. unfold make_path. destruct (select_outbound _ _ _); [|discriminate].
    destruct (select_inbound (dr_now2 d) (dr_r2 d) (h_tunnels x)) as [[i e]|] eqn:E; [|destruct (ask_lease_set _ _); discriminate].
    assert (Hlt : dr_now2 d + INBOUND_TUNNEL_MIN_AGE < e).
    { unfold select_inbound, or_else in E.
      assert (Hin : In (i, e) (in_available (dr_now2 d) (h_tunnels x)) \/ In (i, e) (in_failing (dr_now2 d) (h_tunnels x))).
      { destruct (choose (dr_r2 d) (in_available _ _)) eqn:Ec; [injection E as ->; left|right]; eapply choose_in; eauto. }
      destruct Hin as [Hin|Hin]; apply in_flat_map in Hin as ([t k] & _ & Hk); cbn in Hk;
        destruct k; try contradiction; destruct (_ <? expires) eqn:El; try contradiction;
        destruct Hk as [Hk|[]]; injection Hk as _ <-; now apply N.ltb_lt in El. }
    destruct (N.ltb_spec e (dr_now3 d + INBOUND_TUNNEL_MIN_AGE)); [lia|discriminate]. }
  destruct op; cbn [hstep]; try discriminate.
  - unfold routing_path. destruct (h_path h); [discriminate|]. specialize (Hm d h Hop).
    destruct (make_path d h); [congruence|discriminate].
  - unfold recreate_path. destruct (h_path h) as [[i o]|].
    + match goal with |- context[make_path d ?x] => specialize (Hm d x Hop); destruct (make_path d x) end; [congruence|discriminate].
    + specialize (Hm d h Hop). destruct (make_path d h); [congruence|discriminate].
  - destruct (poll now h); discriminate.
Qed.
Print Assumptions C78_no_panic_partial.

Example C78_ex :
  exists h outs, hrun (Some (new_handle [(5, 40001)] [7] [])) [HPoll 9000] = (Some h, outs) /\
    snd (hstep (Some h) (HPath (one_reading 10000 3 4 false))) = Got (Some (5, 7)) false.
Proof. eexists; eexists. vm_compute. auto. Qed.

(** The lease has just over 30 seconds left when it is chosen and just under when the timer is
    set, two milliseconds later. *)
Theorem C78_clock_tick_refuted :
  exists inb outb t, snd (hstep (Some (new_handle inb outb [])) (HPath (mkDraw t t (t + 2) 0 0 true))) = Panicked.
Proof. exists [(5, 40001)], [7], 10000. reflexivity. Qed.
Print Assumptions C78_clock_tick_refuted.

(** ** C79: a handle hears about expired tunnels *)
(** While the handle has fewer than 128 unread events, the event is heard at the next poll. *)
Theorem C79_events_heard_partial :
  forall inb outb exps ops h outs t now h' op i o q,
    hrun (Some (new_handle inb outb exps)) ops = (Some h, outs) -> N.of_nat (length (unread [] ops)) < 128 ->
    hrun (Some h) [HEvent (OutExpired t); HPoll now] = (Some h', [Quiet; Quiet]) ->
    snd (hstep (Some h') op) = Got (Some (i, o)) q -> o <> t.
Proof.
  intros inb outb exps ops h outs t now h' op i o q Hrun Hroom Hpoll Hs ->.
  assert (Hall : hrun (Some (new_handle inb outb exps)) (ops ++ [HEvent (OutExpired t); HPoll now]) = (Some h', outs ++ [Quiet; Quiet])).
  { clear -Hrun Hpoll. revert Hrun. generalize (Some (new_handle inb outb exps)) as s. revert outs.
    induction ops as [|a ops IH]; intros outs s Hrun.
    - cbn in Hrun. apply pair_equal_spec in Hrun as [-> <-]. exact Hpoll.
    - cbn [hrun app] in *. destruct (hstep s a) as [s1 o1]. destruct (hrun s1 ops) as [s2 os] eqn:E.
      apply pair_equal_spec in Hrun as [-> <-]. now rewrite (IH os s1 E). }
  destruct (only_announced _ _ _ _ _ _ _ _ _ _ Hall Hs) as [_ Hout]. apply Hout. clear -Hrun Hroom.
  assert (G : forall ops s w seen outs, N.of_nat (length (unread w ops)) < 128 -> h_events s = w -> hrun (Some s) ops = (Some h, outs) ->
            exists l, told w seen (ops ++ [HEvent (OutExpired t); HPoll now]) = l ++ [OutExpired t]).
  { clear. induction ops as [|a ops IH]; intros s w seen outs Hroom Hw Hrun.
    - cbn in Hrun. apply pair_equal_spec in Hrun as [Hs _]. injection Hs as ->. cbn [told app].
      cbn [unread] in Hroom. rewrite (proj2 (N.ltb_lt _ _) Hroom). exists (seen ++ w). now rewrite app_assoc.
    - cbn [hrun] in Hrun. destruct (hstep (Some s) a) as [[s1|] o1] eqn:Es.
      2:{ exfalso. assert (forall l, fst (hrun None l) = None) as Hn by (induction l as [|b l IHl]; cbn; [auto|destruct (hrun None l); auto]).
          specialize (Hn ops). destruct (hrun None ops); cbn in Hn. apply pair_equal_spec in Hrun as [Hrun _]. congruence. }
      destruct (hrun (Some s1) ops) as [s2 os] eqn:Er. apply pair_equal_spec in Hrun as [-> _].
      assert (Hmk : forall d x y p r, make_path d x = PRes y p r -> h_events y = h_events x).
      { intros d x y p r. unfold make_path. destruct (select_outbound _ _ _); [|now intros E; injection E as <- _ _].
        destruct (select_inbound _ _ _) as [[? ?]|].
        - destruct (_ <? _); [discriminate|]. now intros E; injection E as <- _ _.
        - unfold ask_lease_set. destruct (h_status x); [destruct (dr_room d)|]; now intros E; injection E as <- _ _. }
      destruct a; cbn [hstep] in Es; cbn [told app]; cbn [unread] in Hroom.
      + assert (h_events s1 = w).
        { unfold routing_path in Es. destruct (h_path s) as [p|].
          - apply pair_equal_spec in Es as [Es _]. injection Es as <-. exact Hw.
          - destruct (make_path d s) eqn:Em; apply pair_equal_spec in Es as [Es _]; [discriminate|].
            injection Es as <-. rewrite <- Hw. eapply Hmk; eauto. }
        eapply IH; eauto.
      + assert (h_events s1 = w).
        { unfold recreate_path in Es. destruct (h_path s) as [[? ?]|].
          - match type of Es with of_pres ?m = _ => destruct m eqn:Em end; apply pair_equal_spec in Es as [Es _]; [discriminate|].
            injection Es as <-. apply Hmk in Em. rewrite <- Hw. exact Em.
          - destruct (make_path d s) eqn:Em; apply pair_equal_spec in Es as [Es _]; [discriminate|].
            injection Es as <-. rewrite <- Hw. eapply Hmk; eauto. }
        eapply IH; eauto.
      + destruct (poll now0 s) as [x|] eqn:Ep; apply pair_equal_spec in Es as [Es _]; [|discriminate].
        injection Es as <-. eapply IH; [exact Hroom| |exact Er]. unfold poll in Ep. destruct (on_answer s); [|discriminate]. injection Ep as <-. reflexivity.
      + apply pair_equal_spec in Es as [Es _]. injection Es as <-. eapply IH; [exact Hroom| |exact Er].
        unfold push_event. rewrite Hw. change EVENT_CHANNEL with 128. destruct (_ <? 128); cbn; auto.
      + apply pair_equal_spec in Es as [Es _]. injection Es as <-. eapply IH; [exact Hroom| |exact Er].
        unfold push_answer. destruct (h_status s), (h_answer s); cbn; auto. }
  destruct (G ops (new_handle inb outb exps) [] (at_birth inb outb exps) outs Hroom eq_refl Hrun) as [l ->].
  unfold out_state. rewrite fold_left_app. cbn [fold_left out_after]. now rewrite N.eqb_refl.
Qed.
Print Assumptions C79_events_heard_partial.

Example C79_ex :
  exists h h', hrun (Some (new_handle [(5, 900000)] [7; 8] [])) [HPath (one_reading 1000 0 0 true)] = (Some h, [Got (Some (5, 7)) false]) /\
    N.of_nat (length (unread [] [HPath (one_reading 1000 0 0 true)])) < 128 /\
    hrun (Some h) [HEvent (OutExpired 7); HPoll 2000] = (Some h', [Quiet; Quiet]) /\
    snd (hstep (Some h') (HPath (one_reading 3000 0 0 true))) = Got (Some (5, 8)) false.
Proof. eexists; eexists. vm_compute. auto. Qed.

(** 128 events are waiting when our tunnel expires: that event is lost, and the path leads through
    a tunnel that is no more. *)
Theorem C79_event_lost_refuted :
  exists inb outb ops h outs,
    hrun (Some (new_handle inb outb [])) (ops ++ [HEvent (OutExpired 7); HPoll 2000]) = (Some h, outs) /\
    snd (hstep (Some h) (HPath (one_reading 3000 0 0 true))) = Got (Some (5, 7)) false.
Proof.
  exists [(5, 900000)], [7], (HPath (one_reading 1000 0 0 true) :: repeat (HEvent (OutBuilt 8)) 128).
  eexists; eexists. split; vm_compute; reflexivity.
Qed.
Print Assumptions C79_event_lost_refuted.
