(** The destination seen by one of its handles: invariants. *)
From Coq Require Import List NArith Bool Lia.
From Verif Require Import ListUtil Bytes NMap PrimModel RouteProofs RpathModel DestModel DestSpec DestProofs DestProofs2 DestHandleSpec.
Import ListNotations.
Open Scope N_scope.

Definition front (d : dest) := (d_handles d, d_next d, d_out d, d_exp d, d_in d, d_wait d, d_cmds d).
Lemma front_eq d d' : front d' = front d -> d_handles d' = d_handles d /\ d_next d' = d_next d /\ d_out d' = d_out d /\
  d_exp d' = d_exp d /\ d_in d' = d_in d /\ d_wait d' = d_wait d /\ d_cmds d' = d_cmds d.
Proof. unfold front. intro H. injection H. intros. repeat split; assumption. Qed.

Lemma query_front now x d d' st o : query_lease_set now x d = (d', st, o) -> front d' = front d /\ filter asks o = [].
Proof.
  unfold query_lease_set. destruct (smem x (d_inflight d)); [|destruct (match nget x (d_remote d) with Some c => _ | None => false end)];
    intro H; apply pair_equal_spec in H as [H <-]; apply pair_equal_spec in H as [<- _]; auto.
Qed.
Lemma send_front now x st m k d d' o : send_inner now x st m k d = Some (d', o) -> front d' = front d /\ filter asks o = [].
Proof.
  unfold send_inner. destruct (nget x (d_remote d)) as [c|]; [|intro H; injection H as <- <-; auto].
  destruct (ls_expired now (c_ls c)).
  - destruct (query_lease_set _ _ _) as [[d2 s] o2] eqn:E. intro H. injection H as <- <-. apply query_front in E as [E1 E2]. split; [exact E1 | exact E2].
  - destruct st as [i ob|].
    + destruct (find_lease i _); [|destruct (nget i (c_expiring c))]; intro H; injection H as <- <-; auto.
    + destruct (choose k _); intro H; [|discriminate]. injection H as <- <-. auto.
Qed.
Lemma flush_front now x : forall msgs rs d d' o, flush now x msgs rs d = Some (d', o) -> front d' = front d /\ filter asks o = [].
Proof.
  induction msgs as [|m msgs IH]; intros rs d d' o H; cbn [flush] in H; [injection H as <- <-; auto|].
  destruct (send_inner _ _ _ _ _ _) as [[d1 o1]|] eqn:E1; [|discriminate]. destruct (flush now x msgs (tl rs) d1) as [[d2 o2]|] eqn:E2; [|discriminate].
  injection H as <- <-. apply send_front in E1 as [F1 A1]. apply IH in E2 as [F2 A2]. split; [congruence|]. now rewrite filter_app, A1, A2.
Qed.

Lemma nget_mapk {A} (f : N -> A -> A) k (m : nmap A) : nget k (map (fun x => (fst x, f (fst x) (snd x))) m) = option_map (f k) (nget k m).
Proof.
  induction m as [|[j v] m IH]; cbn; [reflexivity|]. destruct (N.eqb_spec k j) as [->|]; [reflexivity | exact IH].
Qed.
Lemma nget_broadcast e k hs : nget k (broadcast e hs) = option_map (fun x => (fst x, push_event e (snd x))) (nget k hs).
Proof. unfold broadcast. apply (nget_mapk (fun _ x => (fst x, push_event e (snd x)))). Qed.
Lemma nget_tell r e k hs : nget k (tell_remote r e hs) = option_map (fun x => if fst x =? r then (fst x, push_event e (snd x)) else x) (nget k hs).
Proof.
  unfold tell_remote. rewrite <- (nget_mapk (fun _ x => if fst x =? r then (fst x, push_event e (snd x)) else x)). f_equal. apply map_ext.
  intros [j [a b]]. cbn. now destruct (a =? r).
Qed.
Lemma nget_answer ok ids k hs : nget k (answer_all ok ids hs) = option_map (fun x => if smem k ids then (fst x, push_answer ok (snd x)) else x) (nget k hs).
Proof.
  unfold answer_all. rewrite <- (nget_mapk (fun j x => if smem j ids then (fst x, push_answer ok (snd x)) else x)). f_equal. apply map_ext.
  intros [j [a b]]. cbn. now destruct (smem j ids).
Qed.

Definition wait_of (d : dest) (x : N) : list N := match nget x (d_wait d) with Some l => l | None => [] end.
Definition leases_of (d : dest) (x : N) : list lease := match nget x (d_in d) with Some l => l | None => [] end.
(** Nothing is there for handles that are not made yet. *)
Record early (d : dest) : Prop := mkEarly {
  e_h : forall h, In h (nkeys (d_handles d)) -> h < d_next d;
  e_c : forall c, In c (d_cmds d) -> snd c < d_next d;
  e_w : forall x h, In h (wait_of d x) -> h < d_next d }.
(** The destination and the scene. *)
Record scn (r : N) (d : dest) (s : scene) : Prop := mkScn {
  n_rel : rel r d (sc_remote s);
  n_out : d_out d = s_out (sc_seen s);
  n_exp : d_exp d = s_exp (sc_seen s);
  n_in : leases_of d r = s_leases (sc_seen s);
  n_q : N.of_nat (length (d_cmds d)) = sc_queued s }.
(** The destination and the handle alone. *)
Record solo (r h : N) (d : dest) (a : alone) : Prop := mkSolo {
  o_lt : h < d_next d;
  o_h : nget h (d_handles d) = option_map (fun x => (r, x)) (al_handle a);
  o_c : forall x, In (x, h) (d_cmds d) -> x = r;
  o_a : In (r, h) (d_cmds d) <-> al_asked a = true;
  o_w : smem h (wait_of d r) = al_waits a;
  o_o : forall x, x <> r -> smem h (wait_of d x) = false }.

Lemma front_early d d' : front d' = front d -> early d -> early d'.
Proof.
  intros F [A B C]. apply front_eq in F as (F1 & F2 & F3 & F4 & F5 & F6 & F7).
  constructor; unfold wait_of; rewrite ?F1, ?F2, ?F6, ?F7; assumption.
Qed.
Lemma front_solo r h d d' a : front d' = front d -> solo r h d a -> solo r h d' a.
Proof.
  intros F [A B C D E G]. apply front_eq in F as (F1 & F2 & F3 & F4 & F5 & F6 & F7).
  constructor; unfold wait_of; rewrite ?F1, ?F2, ?F6, ?F7; assumption.
Qed.

(** The commands. *)
Lemma commands_front now : forall cs d d' o, on_commands now cs d = (d', o) ->
  d_handles d' = d_handles d /\ d_next d' = d_next d /\ d_out d' = d_out d /\ d_exp d' = d_exp d /\ d_in d' = d_in d /\ d_cmds d' = d_cmds d /\
  (forall x h, In h (wait_of d' x) <-> In h (wait_of d x) \/ In (x, h) cs).
Proof.
  induction cs as [|c cs IH]; intros d d' o H; cbn [on_commands] in H.
  { apply pair_equal_spec in H as [<- _]. repeat split; auto. intros [Q|[]]. exact Q. }
  destruct (on_command now c d) as [d1 o1] eqn:E1. destruct (on_commands now cs d1) as [d2 o2] eqn:E2. apply pair_equal_spec in H as [<- _].
  assert (K : d_handles d1 = d_handles d /\ d_next d1 = d_next d /\ d_out d1 = d_out d /\ d_exp d1 = d_exp d /\ d_in d1 = d_in d /\ d_cmds d1 = d_cmds d /\
     forall x h, In h (wait_of d1 x) <-> In h (wait_of d x) \/ c = (x, h)).
  { destruct c as [y g]. unfold on_command in E1. cbn [fst snd] in E1. destruct (nget y (d_wait d)) as [ids|] eqn:W.
    - apply pair_equal_spec in E1 as [<- _]. repeat (split; [reflexivity|]). intros x h. unfold wait_of. cbn [w_wait d_wait]. rewrite nget_nput.
      destruct (N.eqb_spec x y) as [->|NE]; [|split; [auto|intros [Q|Q]; [exact Q | now injection Q as <- <-]]].
      rewrite W, in_app_iff. cbn. split; [intros [Q|[Q|[]]]; [auto | right; now rewrite Q] | intros [Q|Q]; [auto | right; left; congruence]].
    - destruct (query_lease_set now y _) as [[d3 st] o3] eqn:Q. apply pair_equal_spec in E1 as [<- _]. apply query_front in Q as [Q _].
      apply front_eq in Q as (F1 & F2 & F3 & F4 & F5 & F6 & F7). repeat (split; [assumption|]). intros x h. unfold wait_of. rewrite F6. cbn [w_wait d_wait]. rewrite nget_nput.
      destruct (N.eqb_spec x y) as [->|NE]; [|split; [auto|intros [Q|Q]; [exact Q | now injection Q as <- <-]]].
      rewrite W. cbn. split; [intros [Q|[]]; right; now rewrite Q | intros [[]|Q]; left; congruence]. }
  destruct K as (K1 & K2 & K3 & K4 & K5 & K6 & K7). apply IH in E2 as (J1 & J2 & J3 & J4 & J5 & J6 & J7).
  repeat (split; [congruence|]). intros x h. rewrite J7, K7. cbn. tauto.
Qed.

Lemma wait_del x d y : match nget y (ndel x (d_wait d)) with Some l => l | None => [] end = if y =? x then [] else wait_of d y.
Proof. unfold wait_of. rewrite nget_ndel. now destruct (y =? x). Qed.

(** What [register_leases] does, seen by one handle. *)
Lemma register_facts now x res d :
  let d' := register_leases now x res d in
  d_next d' = d_next d /\ d_out d' = d_out d /\ d_exp d' = d_exp d /\ d_cmds d' = d_cmds d /\
  (forall y, wait_of d' y = if y =? x then [] else wait_of d y) /\
  (forall y, leases_of d' y = match res with Some l => if y =? x then filter (fun z => now <? l_expires_ms z) (leases_of d x ++ l) else leases_of d y | None => leases_of d y end) /\
  nkeys (d_handles d') = nkeys (d_handles d) /\
  forall h, nget h (d_handles d') =
    option_map (fun z =>
      let z1 := if smem h (wait_of d x) then (fst z, push_answer (match res with Some _ => true | None => false end) (snd z)) else z in
      match res with Some l => if fst z1 =? x then (fst z1, push_event (InBuilt (tunnels_of l)) (snd z1)) else z1 | None => z1 end) (nget h (d_handles d)).
Proof.
  cbv zeta. assert (NK : forall (f : N * (N * handle) -> N * (N * handle)) hs, (forall e, fst (f e) = fst e) -> nkeys (map f hs) = nkeys hs).
  { intros f hs F. unfold nkeys. rewrite map_map. apply map_ext. exact F. }
  unfold register_leases. fold (wait_of d x). destruct res as [l|].
  - cbn [w_handles w_in w_wait d_handles d_next d_out d_exp d_in d_wait d_cmds]. repeat (split; [reflexivity|]).
    split; [intro y; apply wait_del|]. split.
    { intro y. unfold leases_of. cbn [w_handles w_in w_wait d_in]. rewrite nget_nput. now destruct (y =? x). }
    split; [unfold tell_remote, answer_all; rewrite !NK; [reflexivity | |]; intros [? [? ?]]; cbn; destruct (_ : bool); reflexivity|].
    intro h. rewrite nget_tell, nget_answer. destruct (nget h (d_handles d)) as [[a b]|]; reflexivity.
  - cbn [w_handles w_in w_wait d_handles d_next d_out d_exp d_in d_wait d_cmds]. repeat (split; [reflexivity|]).
    split; [intro y; apply wait_del|]. split; [reflexivity|].
    split; [unfold answer_all; rewrite !NK; [reflexivity|]; intros [? [? ?]]; cbn; destruct (smem _ _); reflexivity|].
    intro h. rewrite nget_answer. destruct (nget h (d_handles d)) as [[a b]|]; reflexivity.
Qed.

Lemma hrun_none ops : fst (hrun None ops) = None.
Proof. induction ops as [|op ops IH]; cbn; [reflexivity|]. destruct (hrun None ops) as [s os]. exact IH. Qed.

Definition hears (res : option (list lease)) (waits : bool) : list hop :=
  match res with
  | Some l => (if waits then [HAnswer true] else []) ++ [HEvent (InBuilt (tunnels_of l))]
  | None => if waits then [HAnswer false] else []
  end.
Lemma register_solo now x res d r h a : solo r h d a ->
  solo r h (register_leases now x res d)
    (mkAlone (if x =? r then fst (hrun (al_handle a) (hears res (al_waits a))) else al_handle a) (al_asked a) (if x =? r then false else al_waits a)).
Proof.
  intros [A B C D E G]. destruct (register_facts now x res d) as (R1 & R2 & R3 & R4 & R5 & R6 & R7 & R8).
  constructor; cbn [al_handle al_asked al_waits].
  - now rewrite R1.
  - rewrite R8, B. destruct (N.eqb_spec x r) as [->|NE].
    + rewrite E. destruct (al_handle a) as [hd|]; [|rewrite hrun_none; reflexivity]. cbn [option_map fst snd].
      destruct res as [l|]; destruct (al_waits a); cbn [fst snd hears app hrun hstep]; rewrite ?N.eqb_refl; reflexivity.
    + rewrite (G x NE). destruct (al_handle a) as [hd|]; [|reflexivity]. cbn [option_map fst snd].
      destruct res as [l|]; [|reflexivity]. rewrite (proj2 (N.eqb_neq r x)) by congruence. reflexivity.
  - rewrite R4. exact C.
  - rewrite R4. exact D.
  - rewrite R5. rewrite N.eqb_sym. destruct (N.eqb_spec x r) as [->|NE]; [reflexivity | exact E].
  - intros y NE. rewrite R5. destruct (y =? x); [reflexivity | now apply G].
Qed.
Lemma register_early now x res d : early d -> early (register_leases now x res d).
Proof.
  intros [A B C]. destruct (register_facts now x res d) as (R1 & R2 & R3 & R4 & R5 & R6 & R7 & R8). constructor.
  - rewrite R7, R1. exact A.
  - rewrite R4, R1. exact B.
  - intros y h. rewrite R5, R1. destruct (y =? x); [intros [] | apply C].
Qed.

Section Steps.
Variable did : destination -> N.

Lemma clove_front now ls d : front (on_clove did now ls d) =
  front (if N.of_nat (length (ls_leases ls)) =? 0 then d else register_leases now (did (h_dest (ls_header' ls))) (Some (ls_leases ls)) d).
Proof.
  unfold on_clove, ls_id. destruct (ls_leases ls) as [|l L] eqn:E; [reflexivity|].
  replace (N.of_nat (length (l :: L)) =? 0) with false by (symmetry; apply N.eqb_neq; cbn [length]; lia).
  rewrite <- E. set (d1 := register_leases _ _ _ _). destruct (nget _ (d_remote d1)) as [c|]; reflexivity.
Qed.
Lemma result_front now x res rs d d' o : on_result now x res rs d = Some (d', o) ->
  front d' = front (if smem x (d_inflight d) then register_leases now x (option_map ls_leases res) d else d) /\ filter asks o = [].
Proof.
  unfold on_result. destruct (smem x (d_inflight d)); cbn [negb]; [|intro H; injection H as <- <-; auto].
  set (d1 := register_leases _ _ _ _). destruct res as [ls|]; [|intro H; injection H as <- <-; auto].
  destruct (ls_keys ls); [discriminate|]. destruct (nget x _) as [c|].
  - destruct (flush _ _ _ _ _) as [[d3 o3]|] eqn:E; [|discriminate]. intro H. injection H as <- <-. apply flush_front in E as [E1 E2].
    split; [exact E1|]. now rewrite filter_app, E2.
  - intro H. injection H as <- <-. auto.
Qed.
Lemma use_facts h op d d' o : use_handle h op d = (d', o) ->
  d_next d' = d_next d /\ d_out d' = d_out d /\ d_exp d' = d_exp d /\ d_in d' = d_in d /\ d_wait d' = d_wait d /\
  match nget h (d_handles d), owner_op op with
  | Some (x, hd), true =>
      let (hd', u) := hstep (Some hd) (with_room (N.of_nat (length (d_cmds d)) <? 512) op) in
      d_handles d' = (match hd' with Some z => nput h (x, z) (d_handles d) | None => ndel h (d_handles d) end) /\ o = [HandleOut h u] /\
      d_cmds d' = d_cmds d ++ (if asks (HandleOut h u) then [(x, h)] else [])
  | _, _ => d' = d /\ o = []
  end.
Proof.
  unfold use_handle. destruct (nget h (d_handles d)) as [[x hd]|] eqn:NG; [|intro H; apply pair_equal_spec in H as [<- <-]; repeat split].
  destruct (owner_op op); [|intro H; apply pair_equal_spec in H as [<- <-]; repeat split].
  change COMMAND_CHANNEL with 512. destruct (hstep (Some hd) _) as [hd' u]. intro H. apply pair_equal_spec in H as [<- <-].
  destruct hd'; destruct u as [|? []| |]; cbn [w_handles w_cmds d_handles d_next d_out d_exp d_in d_wait d_cmds asks]; rewrite ?app_nil_r; repeat split.
Qed.

Lemma step_early d op d' o : early d -> dstep did d op = Some (d', o) -> early d'.
Proof.
  intros E S. destruct op; cbn [dstep] in S.
  - destruct (query_lease_set now remote d) as [[d1 st] o1] eqn:Q. injection S as <- <-. apply query_front in Q as [Q _]. eapply front_early; eauto.
  - apply send_front in S as [S _]. eapply front_early; eauto.
  - injection S as <- <-. eapply front_early; [apply clove_front|]. destruct (_ =? _); [exact E | now apply register_early].
  - apply result_front in S as [S _]. eapply front_early; [exact S|]. destruct (smem _ _); [now apply register_early | exact E].
  - injection S as <- <-. destruct E as [A B C]. constructor; [|exact B|exact C]. intros h I. apply A. revert I. cbn. unfold broadcast, nkeys. rewrite map_map. auto.
  - injection S as <- <-. destruct E as [A B C]. constructor; [|exact B|exact C]. intros h I. apply A. revert I. cbn. unfold broadcast, nkeys. rewrite map_map. auto.
  - injection S as <- <-. destruct E as [A B C]. constructor; [|exact B|exact C]. intros h I. apply A. revert I. cbn. unfold broadcast, nkeys. rewrite map_map. auto.
  - injection S as S. apply commands_front in S as (F1 & F2 & F3 & F4 & F5 & F6 & F7). destruct E as [A B C]. constructor.
    + rewrite F1, F2. exact A.
    + rewrite F6. intros c [].
    + intros x h. rewrite F7, F2. intros [I|I]; [exact (C _ _ I) | exact (B _ I)].
  - injection S as <- <-. destruct E as [A B C]. constructor; cbn.
    + intros h I. apply In_nkeys_nput in I as [->|I]; [lia|]. apply A in I. lia.
    + intros c I. apply B in I. lia.
    + intros x h I. apply C in I. lia.
  - injection S as S. apply use_facts in S as (F1 & F2 & F3 & F4 & F5 & F6). destruct E as [A B C].
    destruct (nget h (d_handles d)) as [[x hd]|] eqn:NG; [|destruct F6 as [-> _]; constructor; assumption].
    destruct (owner_op op); [|destruct F6 as [-> _]; constructor; assumption].
    destruct (hstep (Some hd) _) as [hd' u]. destruct F6 as (G1 & G2 & G3).
    assert (HK : h < d_next d) by (apply A, nget_Some_nkeys; eauto). constructor.
    + rewrite G1, F1. destruct hd'; intros k I; [apply In_nkeys_nput in I as [->|I]; auto | apply In_nkeys_ndel in I; apply A; tauto].
    + rewrite G3, F1. intros c I. apply in_app_or in I as [I|I]; [now apply B|]. destruct (asks _); [destruct I as [<-|[]]; exact HK | destruct I].
    + unfold wait_of. rewrite F5, F1. exact C.
  - injection S as <- <-. destruct E as [A B C]. constructor; [|exact B|exact C]. cbn. intros k I. apply In_nkeys_ndel in I. apply A. tauto.
  - injection S as <- <-. destruct E as [A B C]. constructor; assumption.
Qed.

Lemma brings_plain r lk op : match op with Clove _ _ | Result _ _ _ _ => False | _ => True end -> brings did r lk op = None.
Proof. destruct op; try contradiction; reflexivity. Qed.
Lemma step_scn r d s op d' o : scn r d s -> dstep did d op = Some (d', o) -> scn r d' (scene_step did r s op o).
Proof.
  intros [R A B C Q] S. pose proof (step_rel did _ _ _ _ _ _ R S) as R'.
  assert (F : forall d1, d_out d1 = s_out (sc_seen s) -> d_exp d1 = s_exp (sc_seen s) -> leases_of d1 r = s_leases (sc_seen s) -> N.of_nat (length (d_cmds d1)) = sc_queued s ->
     front d' = front d1 -> filter asks o = [] -> see did r (looking (sc_remote s)) (sc_seen s) op = sc_seen s -> (forall n, op <> Commands n) -> scn r d' (scene_step did r s op o)).
  { intros d1 A1 B1 C1 Q1 F AS SE NC. apply front_eq in F as (F1 & F2 & F3 & F4 & F5 & F6 & F7). constructor; cbn [scene_step sc_remote sc_seen sc_queued]; rewrite ?SE.
    - exact R'.
    - now rewrite F3.
    - now rewrite F4.
    - unfold leases_of in *. now rewrite F5.
    - rewrite F7, Q1. unfold queued. rewrite AS. cbn [length]. rewrite N.add_0_r. destruct op; try reflexivity. now elim (NC now). }
  assert (G : forall x res t, front d' = front (register_leases t x res d) -> filter asks o = [] -> (forall n, op <> Commands n) ->
     see did r (looking (sc_remote s)) (sc_seen s) op =
       (match res with Some l => if r =? x then mkSeen (s_out (sc_seen s)) (s_exp (sc_seen s)) (filter (fun z => t <? l_expires_ms z) (s_leases (sc_seen s) ++ l)) else sc_seen s | None => sc_seen s end) ->
     scn r d' (scene_step did r s op o)).
  { intros x res t F' AS NC SE. destruct (register_facts t x res d) as (R1 & R2 & R3 & R4 & R5 & R6 & R7 & R8).
    apply front_eq in F' as (F1 & F2 & F3 & F4 & F5 & F6 & F7). constructor; cbn [scene_step sc_remote sc_seen sc_queued]; rewrite ?SE.
    - exact R'.
    - rewrite F3, R2, A. destruct res; [destruct (r =? x)|]; reflexivity.
    - rewrite F4, R3, B. destruct res; [destruct (r =? x)|]; reflexivity.
    - assert (L : leases_of d' r = leases_of (register_leases t x res d) r) by (unfold leases_of; now rewrite F5).
      rewrite L, R6. destruct res; [|exact C]. destruct (N.eqb_spec r x) as [<-|NE]; [cbn [s_leases]; now rewrite C | exact C].
    - rewrite F7, R4, Q. unfold queued. rewrite AS. cbn [length]. rewrite N.add_0_r. destruct op; try reflexivity. now elim (NC now). }
  destruct op; cbn [dstep] in S.
  - destruct (query_lease_set now remote d) as [[d1 st] o1] eqn:E. injection S as <- <-. apply query_front in E as [E1 E2].
    apply (F d); auto; [now rewrite filter_app, E2 | discriminate].
  - apply send_front in S as [S1 S2]. apply (F d); auto. discriminate.
  - injection S as <- <-. pose proof (clove_front now ls d) as CF. destruct (N.of_nat (length (ls_leases ls)) =? 0) eqn:Z.
    + apply (F d); auto; [|discriminate]. cbn [see brings]. rewrite Z, andb_false_r. reflexivity.
    + apply (G _ _ _ CF); [reflexivity | discriminate |]. cbn [see brings time_of]. rewrite Z, andb_true_r, N.eqb_sym. now destruct (r =? did _).
  - apply result_front in S as [S1 S2]. pose proof (proj2 R) as LK. destruct (smem remote (d_inflight d)) eqn:I.
    + apply (G _ _ _ S1 S2); [discriminate|]. destruct res as [ls|]; [|reflexivity]. cbn [option_map see brings time_of]. rewrite (N.eqb_sym r).
      destruct (N.eqb_spec remote r) as [->|NE]; [|reflexivity]. rewrite <- LK, I. reflexivity.
    + apply (F d); auto; [|discriminate]. destruct res as [ls|]; [|reflexivity]. cbn [see brings].
      destruct (N.eqb_spec remote r) as [->|NE]; [|reflexivity]. rewrite <- LK, I. reflexivity.
  - injection S as <- <-. constructor; cbn; [exact R' | now rewrite A | exact B | exact C | now rewrite N.add_0_r].
  - injection S as <- <-. constructor; cbn; [exact R' | now rewrite A | now rewrite B | exact C | now rewrite N.add_0_r].
  - injection S as <- <-. constructor; cbn; [exact R' | exact A | now rewrite B | exact C | now rewrite N.add_0_r].
  - injection S as S. apply commands_front in S as (F1 & F2 & F3 & F4 & F5 & F6 & F7). constructor; cbn [scene_step sc_remote sc_seen sc_queued see brings queued].
    + exact R'.
    + rewrite F3. exact A.
    + rewrite F4. exact B.
    + unfold leases_of in *. rewrite F5. exact C.
    + rewrite F6. reflexivity.
  - injection S as <- <-. constructor; cbn; [exact R' | exact A | exact B | exact C | now rewrite N.add_0_r].
  - injection S as S. apply use_facts in S as (F1 & F2 & F3 & F4 & F5 & F6). constructor; cbn [scene_step sc_remote sc_seen sc_queued see brings queued].
    + exact R'.
    + rewrite F2. exact A.
    + rewrite F3. exact B.
    + unfold leases_of in *. rewrite F4. exact C.
    + destruct (nget h (d_handles d)) as [[x hd]|]; [|destruct F6 as [-> ->]; cbn; now rewrite N.add_0_r].
      destruct (owner_op op); [|destruct F6 as [-> ->]; cbn; now rewrite N.add_0_r].
      destruct (hstep (Some hd) _) as [hd' u]. destruct F6 as (G1 & -> & G3). rewrite G3, app_length, Nat2N.inj_add, Q. cbn [filter]. now destruct (asks _).
  - injection S as <- <-. constructor; cbn; [exact R' | exact A | exact B | exact C | now rewrite N.add_0_r].
  - injection S as <- <-. constructor; cbn; [exact R' | exact A | exact B | exact C | now rewrite N.add_0_r].
Qed.

Lemma step_solo r h d s a op d' o : scn r d s -> solo r h d a -> dstep did d op = Some (d', o) -> solo r h d' (alone_step did r h s a op o).
Proof.
  intros N A S. pose proof (proj2 (n_rel _ _ _ N)) as LK.
  assert (AE : forall b b', al_handle b = al_handle b' -> al_asked b = al_asked b' -> al_waits b = al_waits b' -> b = b') by (intros [] []; cbn; congruence).
  destruct op; cbn [dstep] in S.
  - destruct (query_lease_set now remote d) as [[d1 st] o1] eqn:E. injection S as <- <-. apply query_front in E as [E1 E2]. eapply front_solo; [exact E1|].
    replace (alone_step _ _ _ _ _ _ _) with a by (apply AE; reflexivity). exact A.
  - apply send_front in S as [S1 S2]. eapply front_solo; [exact S1|].
    replace (alone_step _ _ _ _ _ _ _) with a by (apply AE; reflexivity). exact A.
  - injection S as <- <-. eapply front_solo; [apply clove_front|]. destruct (N.of_nat (length (ls_leases ls)) =? 0) eqn:Z.
    + replace (alone_step _ _ _ _ _ _ _) with a; [exact A|]. apply AE; cbn [alone_step al_handle al_asked al_waits told brings fails andb]; rewrite ?Z, ?andb_false_r; reflexivity.
    + eapply (register_solo now (did (h_dest (ls_header' ls))) (Some (ls_leases ls))) in A.
      replace (alone_step _ _ _ _ _ _ _) with (mkAlone (if did (h_dest (ls_header' ls)) =? r then fst (hrun (al_handle a) (hears (Some (ls_leases ls)) (al_waits a))) else al_handle a) (al_asked a) (if did (h_dest (ls_header' ls)) =? r then false else al_waits a)); [exact A|].
      apply AE; cbn [alone_step al_handle al_asked al_waits told brings fails andb]; rewrite ?Z, ?andb_true_r; try destruct (did _ =? r); reflexivity.
  - apply result_front in S as [S1 S2]. eapply front_solo; [exact S1|]. destruct (smem remote (d_inflight d)) eqn:I.
    + eapply (register_solo now remote (option_map ls_leases res)) in A.
      replace (alone_step _ _ _ _ _ _ _) with (mkAlone (if remote =? r then fst (hrun (al_handle a) (hears (option_map ls_leases res) (al_waits a))) else al_handle a) (al_asked a) (if remote =? r then false else al_waits a)); [exact A|].
      apply AE; cbn [alone_step al_handle al_asked al_waits told]; destruct res as [ls|]; cbn [brings fails option_map hears];
        destruct (N.eqb_spec remote r) as [->|NE]; rewrite <- ?LK, ?I; cbn [andb]; reflexivity.
    + replace (alone_step _ _ _ _ _ _ _) with a; [exact A|]. apply AE; cbn [alone_step al_handle al_asked al_waits told]; destruct res as [ls|]; cbn [brings fails];
        destruct (N.eqb_spec remote r) as [->|NE]; rewrite <- ?LK, ?I; cbn [andb]; reflexivity.
  - injection S as <- <-. destruct A as [A1 A2 A3 A4 A5 A6]. constructor; try assumption. cbn [on_out_built w_handles d_handles alone_step al_handle told]. rewrite nget_broadcast, A2.
    destruct (al_handle a); reflexivity.
  - injection S as <- <-. destruct A as [A1 A2 A3 A4 A5 A6]. constructor; try assumption. cbn [on_out_expiring w_handles d_handles alone_step al_handle told]. rewrite nget_broadcast, A2.
    destruct (al_handle a); reflexivity.
  - injection S as <- <-. destruct A as [A1 A2 A3 A4 A5 A6]. constructor; try assumption. cbn [on_out_expired w_handles d_handles alone_step al_handle told]. rewrite nget_broadcast, A2.
    destruct (al_handle a); reflexivity.
  - injection S as S. apply commands_front in S as (F1 & F2 & F3 & F4 & F5 & F6 & F7). destruct A as [A1 A2 A3 A4 A5 A6].
    constructor; cbn [alone_step al_handle al_asked al_waits told brings fails andb hrun fst].
    + now rewrite F2.
    + now rewrite F1.
    + rewrite F6. intros x [].
    + rewrite F6. cbn. intuition discriminate.
    + apply eq_true_iff_eq. rewrite smem_In, F7, orb_true_iff, <- smem_In, <- A4. change (wait_of (w_cmds d []) r) with (wait_of d r). rewrite A5. tauto.
    + intros x NE. apply not_true_iff_false. rewrite smem_In, F7. intros [Q|Q].
      * apply smem_In in Q. change (wait_of (w_cmds d []) x) with (wait_of d x) in Q. rewrite (A6 x NE) in Q. discriminate.
      * now apply A3 in Q.
  - injection S as <- <-. destruct A as [A1 A2 A3 A4 A5 A6]. constructor; cbn [new_dest_handle fst d_next d_handles d_cmds alone_step al_handle al_asked al_waits told brings fails andb hrun fst]; try assumption.
    + lia.
    + rewrite nget_nput, (proj2 (N.eqb_neq h (d_next d))) by lia. exact A2.
  - injection S as S. apply use_facts in S as (F1 & F2 & F3 & F4 & F5 & F6). destruct A as [A1 A2 A3 A4 A5 A6].
    assert (W : forall x, wait_of d' x = wait_of d x) by (intro x; unfold wait_of; now rewrite F5).
    rewrite (n_q _ _ _ N) in F6.
    destruct (N.eqb_spec h0 h) as [->|NE].
    + rewrite A2 in F6. destruct (al_handle a) as [hd|] eqn:AH; cbn [option_map] in F6.
      * destruct (owner_op op) eqn:OW.
        -- destruct (hstep (Some hd) _) as [hd' u] eqn:HS. destruct F6 as (G1 & -> & G3).
           constructor; cbn [alone_step al_handle al_asked al_waits told brings fails andb]; rewrite ?N.eqb_refl, ?OW; cbn [andb hrun]; rewrite ?AH, ?HS; cbn [fst existsb]; rewrite ?orb_false_r.
           ++ now rewrite F1.
           ++ rewrite G1. destruct hd'; [rewrite nget_nput, N.eqb_refl; reflexivity | rewrite nget_ndel, N.eqb_refl; reflexivity].
           ++ intros x I. rewrite G3 in I. apply in_app_or in I as [I|I]; [now apply A3|]. destruct (asks _); [|destruct I]. destruct I as [I|[]]. congruence.
           ++ rewrite G3, in_app_iff, A4, orb_true_iff. destruct (asks (HandleOut h u)); cbn; intuition discriminate.
           ++ now rewrite W.
           ++ intros x NX. rewrite W. now apply A6.
        -- destruct F6 as [-> ->]. replace (alone_step _ _ _ _ _ _ _) with a; [constructor; rewrite ?AH; auto|].
           apply AE; cbn [alone_step al_handle al_asked al_waits told brings fails andb]; rewrite ?N.eqb_refl, ?OW; cbn [andb hrun fst existsb]; now rewrite ?orb_false_r.
      * destruct F6 as [-> ->]. replace (alone_step _ _ _ _ _ _ _) with a; [constructor; rewrite ?AH; auto|].
        apply AE; cbn [alone_step al_handle al_asked al_waits told brings fails andb]; rewrite ?N.eqb_refl, ?AH; cbn [andb hrun fst existsb]; rewrite ?hrun_none, ?orb_false_r; reflexivity.
    + replace (alone_step _ _ _ _ _ _ _) with a.
      2: { apply AE; cbn [alone_step al_handle al_asked al_waits told brings fails andb]; rewrite ?(proj2 (N.eqb_neq h0 h) NE); cbn [andb hrun fst]; now rewrite ?orb_false_r. }
      destruct (nget h0 (d_handles d)) as [[x hd]|]; [|destruct F6 as [-> ->]; constructor; assumption].
      destruct (owner_op op); [|destruct F6 as [-> ->]; constructor; assumption].
      destruct (hstep (Some hd) _) as [hd' u]. destruct F6 as (G1 & -> & G3).
      assert (CI : forall y, In (y, h) (d_cmds d') <-> In (y, h) (d_cmds d)).
      { intro y. rewrite G3, in_app_iff. split; [|auto]. intros [I|I]; [exact I|]. destruct (asks _); [|destruct I]. destruct I as [I|[]]. congruence. }
      constructor.
      * now rewrite F1.
      * rewrite G1, <- A2. destruct hd'; [rewrite nget_nput | rewrite nget_ndel]; now rewrite (proj2 (N.eqb_neq h h0)) by congruence.
      * intros y I. apply CI in I. now apply A3.
      * rewrite CI. exact A4.
      * now rewrite W.
      * intros y NX. rewrite W. now apply A6.
  - injection S as <- <-. destruct A as [A1 A2 A3 A4 A5 A6]. constructor; try assumption. cbn [w_handles d_handles alone_step al_handle told brings fails andb hrun fst]. rewrite nget_ndel, N.eqb_sym, A2.
    now destruct (h0 =? h).
  - injection S as <- <-. destruct A as [A1 A2 A3 A4 A5 A6]. constructor; assumption.
Qed.

Lemma early_new outs0 : early (d_new outs0).
Proof. constructor; cbn; [intros h [] | intros c [] | intros x h []]. Qed.
Lemma scn_new r outs0 : scn r (d_new outs0) (scene_new outs0).
Proof. constructor; try reflexivity. apply rel_unknown. Qed.
Lemma run_early : forall ops d d' os, early d -> drun did d ops = Some (d', os) -> early d'.
Proof.
  induction ops as [|op ops IH]; intros d d' os E H; cbn [drun] in H; [injection H as <- <-; exact E|].
  destruct (dstep did d op) as [[d1 o]|] eqn:S; [|discriminate]. destruct (drun did d1 ops) as [[d2 os2]|] eqn:R; [|discriminate].
  injection H as <- <-. eapply IH; [|exact R]. eapply step_early; eauto.
Qed.
Lemma run_scn r : forall ops d d' os s, scn r d s -> drun did d ops = Some (d', os) -> scn r d' (scene_run did r s ops os).
Proof.
  induction ops as [|op ops IH]; intros d d' os s N H; cbn [drun] in H; [injection H as <- <-; exact N|].
  destruct (dstep did d op) as [[d1 o]|] eqn:S; [|discriminate]. destruct (drun did d1 ops) as [[d2 os2]|] eqn:R; [|discriminate].
  injection H as <- <-. cbn [scene_run]. eapply IH; [|exact R]. eapply step_scn; eauto.
Qed.
Lemma run_solo r h : forall ops d d' os s a, scn r d s -> solo r h d a -> drun did d ops = Some (d', os) -> solo r h d' (alone_run did r h s a ops os).
Proof.
  induction ops as [|op ops IH]; intros d d' os s a N A H; cbn [drun] in H; [injection H as <- <-; exact A|].
  destruct (dstep did d op) as [[d1 o]|] eqn:S; [|discriminate]. destruct (drun did d1 ops) as [[d2 os2]|] eqn:R; [|discriminate].
  injection H as <- <-. cbn [alone_run]. eapply IH; [| |exact R]; [eapply step_scn | eapply step_solo]; eauto.
Qed.
Lemma drun_app : forall a b d, drun did d (a ++ b) =
  match drun did d a with Some (d1, o1) => match drun did d1 b with Some (d2, o2) => Some (d2, o1 ++ o2) | None => None end | None => None end.
Proof.
  induction a as [|op a IH]; intros b d; cbn [app drun].
  - destruct (drun did d b) as [[d2 o2]|]; reflexivity.
  - destruct (dstep did d op) as [[d1 o]|]; [|reflexivity]. rewrite IH. destruct (drun did d1 a) as [[d2 o2]|]; [|reflexivity].
    destruct (drun did d2 b) as [[d3 o3]|]; reflexivity.
Qed.
Lemma drun_length : forall ops d d' os, drun did d ops = Some (d', os) -> length os = length ops.
Proof.
  induction ops as [|op ops IH]; intros d d' os H; cbn [drun] in H; [injection H as <- <-; reflexivity|].
  destruct (dstep did d op) as [[d1 o]|]; [|discriminate]. destruct (drun did d1 ops) as [[d2 os2]|] eqn:R; [|discriminate].
  injection H as <- <-. cbn. now rewrite (IH _ _ _ R).
Qed.
Lemma step_next d op d' o : dstep did d op = Some (d', o) -> d_next d' = d_next d + match op with NewHandle _ => 1 | _ => 0 end.
Proof.
  intro S. assert (F : forall d1, front d' = front d1 -> d_next d' = d_next d1) by (intros d1 Q; apply front_eq in Q; tauto).
  destruct op; cbn [dstep] in S; rewrite ?N.add_0_r.
  - destruct (query_lease_set now remote d) as [[d1 st] o1] eqn:E. injection S as <- <-. apply query_front in E as [E _]. apply front_eq in E. tauto.
  - apply send_front in S as [S _]. auto.
  - injection S as <- <-. rewrite (F _ (clove_front now ls d)). destruct (_ =? 0); [reflexivity|]. now destruct (register_facts now (did (h_dest (ls_header' ls))) (Some (ls_leases ls)) d).
  - apply result_front in S as [S _]. rewrite (F _ S). destruct (smem _ _); [|reflexivity]. now destruct (register_facts now remote (option_map ls_leases res) d).
  - injection S as <- <-. reflexivity.
  - injection S as <- <-. reflexivity.
  - injection S as <- <-. reflexivity.
  - injection S as S. apply commands_front in S. tauto.
  - injection S as <- <-. reflexivity.
  - injection S as S. apply use_facts in S. tauto.
  - injection S as <- <-. reflexivity.
  - injection S as <- <-. reflexivity.
Qed.
Lemma run_next : forall ops d d' os, drun did d ops = Some (d', os) -> d_next d' = d_next d + made ops.
Proof.
  induction ops as [|op ops IH]; intros d d' os H; cbn [drun] in H; [injection H as <- <-; cbn; lia|].
  destruct (dstep did d op) as [[d1 o]|] eqn:S; [|discriminate]. destruct (drun did d1 ops) as [[d2 os2]|] eqn:R; [|discriminate].
  injection H as <- <-. rewrite (IH _ _ _ R), (step_next _ _ _ _ S). unfold made. cbn [filter]. destruct op; cbn [length]; lia.
Qed.
(** A new handle. *)
Lemma new_solo r d s d' o : early d -> scn r d s -> dstep did d (NewHandle r) = Some (d', o) -> solo r (d_next d) d' (fresh (sc_seen s)).
Proof.
  intros [E1 E2 E3] [R A B C Q] S. cbn [dstep] in S. injection S as <- <-. constructor; cbn [new_dest_handle fst d_next d_handles d_cmds fresh al_handle al_asked al_waits].
  - lia.
  - rewrite nget_nput, N.eqb_refl. cbn [option_map]. rewrite A, B. do 3 f_equal. rewrite <- C. unfold leases_of, tunnels_of. now destruct (nget r (d_in d)).
  - intros x I. apply E2 in I. cbn in I. lia.
  - split; [intro I; apply E2 in I; cbn in I; lia | discriminate].
  - apply not_true_iff_false. rewrite smem_In. intro I. apply (E3 r) in I. lia.
  - intros x _. apply not_true_iff_false. rewrite smem_In. intro I. apply (E3 x) in I. lia.
Qed.
End Steps.
