(** C102: a routing path handle of a destination is told what concerns it, and nothing else. *)
From Coq Require Import List NArith Bool Lia.
From Verif Require Import ListUtil Bytes NMap PrimModel RpathModel DestModel DestSpec DestProofs DestProofs2 DestHandleSpec DestHandleProofs DestProps.
Import ListNotations.
Open Scope N_scope.

(** Its owner sees what the owner of a handle by itself would see that starts out knowing the
    destination's outbound tunnels and the remote's leases, and is told of every change in them and
    of the answers to its own requests, whatever other handles there are and whatever they do. *)
Theorem C102_handle_alone : forall did outs0 ops1 r ops2 d os op d' out,
  drun did (d_new outs0) (ops1 ++ NewHandle r :: ops2) = Some (d, os) ->
  dstep did d (UseHandle (made ops1) op) = Some (d', out) -> owner_op op = true ->
  let os1 := firstn (length ops1) os in
  let os2 := skipn (length ops1 + 1) os in
  let s1 := scene_run did r (scene_new outs0) ops1 os1 in
  let s2 := scene_run did r s1 ops2 os2 in
  let a := alone_run did r (made ops1) s1 (fresh (sc_seen s1)) ops2 os2 in
  out = match al_handle a with
        | Some h => [HandleOut (made ops1) (snd (hstep (Some h) (with_room (sc_queued s2 <? 512) op)))]
        | None => []
        end.
Proof.
  intros did outs0 ops1 r ops2 d os op d' out H S OW. rewrite drun_app in H.
  destruct (drun did (d_new outs0) ops1) as [[d1 o1]|] eqn:R1; [|discriminate].
  destruct (drun did d1 (NewHandle r :: ops2)) as [[d3 o3]|] eqn:R2; [|discriminate]. injection H as <- <-.
  pose proof (drun_length _ _ _ _ _ R1) as L1. rewrite <- L1. rewrite firstn_app, firstn_all, PeanoNat.Nat.sub_diag. cbn [firstn]. rewrite app_nil_r.
  cbn [drun] in R2. destruct (dstep did d1 (NewHandle r)) as [[d2 on]|] eqn:SN; [|discriminate].
  destruct (drun did d2 ops2) as [[d4 o4]|] eqn:R3; [|discriminate]. injection R2 as -> <-.
  replace (skipn (length o1 + 1) (o1 ++ on :: o4)) with o4.
  2: { rewrite skipn_app, skipn_all2 by lia. replace (length o1 + 1 - length o1)%nat with 1%nat by lia. reflexivity. }
  cbv zeta. set (s1 := scene_run did r (scene_new outs0) ops1 o1).
  assert (N1 : scn r d1 s1) by (eapply run_scn; [apply scn_new | exact R1]).
  assert (NX : d_next d1 = made ops1) by (rewrite (run_next _ _ _ _ _ R1); reflexivity).
  pose proof (new_solo _ _ _ _ _ _ (run_early _ _ _ _ _ (early_new outs0) R1) N1 SN) as A. rewrite NX in A.
  assert (SC : scene_step did r s1 (NewHandle r) on = s1).
  { cbn [dstep] in SN. injection SN as _ <-. destruct s1 as [[iu po lk tk] [so se sl] q]. unfold scene_step, learn, see, queued, brings. cbn [sc_remote sc_seen sc_queued in_use put_off looking taken existsb filter length]. rewrite orb_false_r, N.add_0_r. reflexivity. }
  pose proof (step_scn _ _ _ _ _ _ _ N1 SN) as N2. rewrite SC in N2.
  pose proof (run_scn _ _ _ _ _ _ _ N2 R3) as N3. pose proof (run_solo _ _ _ _ _ _ _ _ _ N2 A R3) as A3.
  cbn [dstep] in S. injection S as S. apply use_facts in S as (_ & _ & _ & _ & _ & F). rewrite (o_h _ _ _ _ A3), OW, (n_q _ _ _ N3) in F.
  destruct (al_handle _) as [hd|]; cbn [option_map] in F; [|exact (proj2 F)].
  destruct (hstep (Some hd) _) as [hd' u]. exact (proj1 (proj2 F)).
Qed.
Print Assumptions C102_handle_alone.

(** What a new handle knows: an outbound tunnel that was there from the start or was built, and has
    not been about to expire since; leases that arrived and had not expired at the last arrival. *)
Definition about (t : N) (op : dop) : bool := match op with OutTunnelBuilt x | OutTunnelExpiring _ x => x =? t | _ => false end.
Definition builds (op : dop) : bool := match op with OutTunnelBuilt _ => true | _ => false end.
Definition last_about (t : N) (ops : list dop) : option dop := hd_error (filter (about t) (rev ops)).
Lemma scene_run_app did r : forall a b oa ob s, length oa = length a ->
  scene_run did r s (a ++ b) (oa ++ ob) = scene_run did r (scene_run did r s a oa) b ob.
Proof. induction a as [|x a IH]; intros b [|y oa] ob s L; cbn in L; try discriminate; [reflexivity|]. cbn. apply IH. now injection L. Qed.
Theorem C102_known_tunnels : forall did r outs0 ops outs t, length outs = length ops ->
  In t (s_out (sc_seen (scene_run did r (scene_new outs0) ops outs))) <->
  match last_about t ops with Some op => builds op = true | None => In t outs0 end.
Proof.
  intros did r outs0 ops. induction ops as [|op ops IH] using rev_ind; intros outs t L.
  { destruct outs; [reflexivity | discriminate]. }
  destruct outs as [|o outs] using rev_ind; [rewrite app_length in L; cbn in L; lia|]. clear IHouts.
  assert (L' : length outs = length ops) by (rewrite !app_length in L; cbn in L; lia).
  rewrite scene_run_app by exact L'. specialize (IH outs t L'). cbn [scene_run scene_step sc_seen].
  unfold last_about in *. rewrite rev_app_distr. cbn [rev app filter]. set (s := scene_run _ _ _ _ _) in *.
  assert (NO : see did r (looking (sc_remote s)) (sc_seen s) op = sc_seen s \/ s_out (see did r (looking (sc_remote s)) (sc_seen s) op) = s_out (sc_seen s) ->
    about t op = false -> In t (s_out (see did r (looking (sc_remote s)) (sc_seen s) op)) <->
    match hd_error (if about t op then op :: filter (about t) (rev ops) else filter (about t) (rev ops)) with Some op => builds op = true | None => In t outs0 end).
  { intros [->|E] ->; [exact IH|]. rewrite E. exact IH. }
  destruct op; try (apply NO; [left; reflexivity | reflexivity]).
  - apply NO; [right|reflexivity]. cbn [see]. destruct (brings _ _ _ _); reflexivity.
  - apply NO; [right|reflexivity]. cbn [see]. destruct (brings _ _ _ _); reflexivity.
  - cbn [see s_out about]. rewrite sadd_In. destruct (N.eqb_spec t0 t) as [->|NE]; cbn [hd_error builds]; [intuition|]. rewrite <- IH. intuition congruence.
  - cbn [see s_out about]. rewrite sdel_In. destruct (N.eqb_spec t0 t) as [->|NE]; cbn [hd_error builds]; [intuition congruence|]. rewrite <- IH. intuition congruence.
  - apply NO; [right|]; reflexivity.
Qed.
Print Assumptions C102_known_tunnels.
Theorem C102_known_leases : forall did r outs0 ops outs l,
  In l (s_leases (sc_seen (scene_run did r (scene_new outs0) ops outs))) ->
  exists ls op, In op ops /\ In l (ls_leases ls) /\ time_of op < l_expires_ms l /\
    ((exists now, op = Clove now ls /\ did (h_dest (ls_header' ls)) = r) \/ exists now rs, op = Result now r (Some ls) rs).
Proof.
  intros did r outs0 ops outs l H.
  assert (G : forall ops outs s, In l (s_leases (sc_seen (scene_run did r s ops outs))) ->
     In l (s_leases (sc_seen s)) \/ exists ls op, In op ops /\ In l (ls_leases ls) /\ time_of op < l_expires_ms l /\
       ((exists now, op = Clove now ls /\ did (h_dest (ls_header' ls)) = r) \/ exists now rs, op = Result now r (Some ls) rs)).
  2: { destruct (G ops outs _ H) as [[]|G']. exact G'. }
  clear. intro ops. induction ops as [|op ops IH]; intros outs s H; [left; destruct outs; exact H|].
  destruct outs as [|o outs]; [left; exact H|]. cbn [scene_run] in H. apply IH in H as [H|(ls & op' & I & J)]; [|right; exists ls, op'; split; [now right | exact J]].
  cbn [scene_step sc_seen] in H.
  destruct op; cbn [see brings] in H; try (left; exact H).
  - destruct (N.eqb_spec (did (h_dest (ls_header' ls))) r) as [E|NE]; cbn [andb] in H; [|now left]. destruct (negb _); [|now left].
    cbn [s_leases time_of] in H. apply filter_In in H as [H T]. apply N.ltb_lt in T. apply in_app_or in H as [H|H]; [now left|]. right.
    exists ls, (Clove now ls). split; [now left|]. split; [exact H|]. split; [exact T|]. left. eauto.
  - destruct res as [ls|]; [|now left]. destruct (N.eqb_spec remote r) as [->|NE]; cbn [andb] in H; [|now left]. destruct (looking _); [|now left].
    cbn [s_leases time_of] in H. apply filter_In in H as [H T]. apply N.ltb_lt in T. apply in_app_or in H as [H|H]; [now left|]. right.
    exists ls, (Result now r (Some ls) rs). split; [now left|]. split; [exact H|]. split; [exact T|]. right. eauto.
Qed.
Print Assumptions C102_known_leases.

(** Two handles for two remotes: the first asks for leases, gets them and a path; the second hears
    of none of this; a third one, made later, knows the leases from the start. *)
Definition c102_d : draw := mkDraw 10000 10000 10000 0 0 true.
Definition c102_ops1 : list dop := [NewHandle 1].
Definition c102_ops2 : list dop :=
  [UseHandle 0 (HPath c102_d); NewHandle 2; Commands 11000; OutTunnelBuilt 8; Result 12000 1 (Some (ls_of 1 0 [(4, 500)])) [];
   OutTunnelExpiring 13000 7; UseHandle 0 (HPoll 14000); NewHandle 1; UseHandle 2 (HPath c102_d); UseHandle 1 (HPath c102_d)].
Example C102_ex :
  match drun toy_id (d_new [7]) (NewHandle 1 :: c102_ops2) with
  | Some (d, os) =>
      nth_error os 1 = Some [HandleOut 0 (Got None true)] /\ nth_error os 3 = Some [Lookup 1] /\
      nth_error os 9 = Some [HandleOut 2 (Got (Some (4, 8)) false)] /\
      nth_error os 10 = Some [HandleOut 1 (Got None true)] /\
      (exists d', dstep toy_id d (UseHandle 0 (HPath c102_d)) = Some (d', [HandleOut 0 (Got (Some (4, 8)) false)])) /\
      made c102_ops1 = 1 /\ sc_queued (scene_run toy_id 1 (scene_new [7]) (NewHandle 1 :: c102_ops2) os) = 1
  | None => False
  end.
Proof. vm_compute. repeat split. eexists. reflexivity. Qed.
