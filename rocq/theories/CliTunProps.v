(** C137, C138: server tunnels keep their destinations, client tunnels join connections to theirs. *)
From Coq Require Import List NArith Bool Lia Permutation.
From Verif Require Import CliTunModel CliTunSpec.
Import ListNotations.
Open Scope N_scope.

(** * C137: server tunnels *)

Lemma seqb_refl : forall a, seqb a a = true.
Proof. intros a. unfold seqb. destruct (str_dec a a); congruence. Qed.
Lemma seqb_neq : forall a b, a <> b -> seqb a b = false.
Proof. intros a b h. unfold seqb. destruct (str_dec a b); congruence. Qed.

Lemma load_keeps : forall utf8 d p c q answers w k d', d p = Some c -> utf8 c = true ->
  load_or_create utf8 d q answers w = (k, d') -> d' p = Some c /\ (q = p -> k = Some c).
Proof.
  intros utf8 d p c q answers w k d' hp hu h. unfold load_or_create in h.
  destruct (str_dec q p) as [->|ne].
  - rewrite hp, hu in h. apply pair_equal_spec in h as [<- <-]. auto.
  - split; [|congruence].
    destruct (d q) as [x|]; [destruct (utf8 x)|].
    + apply pair_equal_spec in h as [_ <-]. exact hp.
    + destruct (generate RETRY_COUNT answers); apply pair_equal_spec in h as [_ <-]; [|exact hp].
      destruct w; cbn [write]; try exact hp; unfold put; rewrite seqb_neq by congruence; exact hp.
    + destruct (generate RETRY_COUNT answers); apply pair_equal_spec in h as [_ <-]; [|exact hp].
      destruct w; cbn [write]; try exact hp; unfold put; rewrite seqb_neq by congruence; exact hp.
Qed.
Lemma start_keeps : forall utf8 p c l d rs d', d p = Some c -> utf8 c = true ->
  start_servers utf8 d l = (rs, d') ->
  d' p = Some c /\
  (forall s a, In (s, a) l -> s_path s = p -> In (mkRunning (s_name s) (s_port s) c) rs) /\
  (forall r, In r rs -> exists s a, In (s, a) l /\ r_name r = s_name s /\ r_port r = s_port s /\
     (s_path s = p -> r_key r = c)).
Proof.
  intros utf8 p c. induction l as [|[s [answers w]] l IH]; intros d rs d' hp hu h; cbn [start_servers] in h.
  - apply pair_equal_spec in h as [<- <-]. split; [exact hp|]. split; [intros s a [] | intros r []].
  - destruct (load_or_create utf8 d (s_path s) answers w) as [k d1] eqn:el.
    destruct (start_servers utf8 d1 l) as [rs1 d2] eqn:es.
    apply (load_keeps utf8 d p c) in el as [h1 hk]; [|assumption..].
    destruct (IH d1 rs1 d2 h1 hu es) as (i1 & i2 & i3).
    apply pair_equal_spec in h as [<- <-]. split; [exact i1|]. split.
    + intros s' a [e | i] e'.
      * injection e as <- <-. rewrite hk by exact e'. left. reflexivity.
      * specialize (i2 s' a i e'). destruct k; [right|]; exact i2.
    + intros r i. destruct k as [k|]; [destruct i as [<- | i]|].
      * exists s, (answers, w). split; [left; reflexivity|]. split; [reflexivity|]. split; [reflexivity|].
        intros e. specialize (hk e). injection hk as ->. reflexivity.
      * destruct (i3 r i) as (s' & a & i' & e). exists s', a. split; [right; exact i' | exact e].
      * destruct (i3 r i) as (s' & a & i' & e). exists s', a. split; [right; exact i' | exact e].
Qed.

(** A server tunnel whose destination is on disk runs at every start with that destination:
    whatever the router answers, however writes end and whatever other tunnels there are. *)
Theorem C137_kept : forall utf8 p c starts d all d', d p = Some c -> utf8 c = true ->
  life utf8 d starts = (all, d') ->
  d' p = Some c /\
  Forall2 (fun l rs =>
    (forall s a, In (s, a) l -> s_path s = p -> In (mkRunning (s_name s) (s_port s) c) rs) /\
    (forall r, In r rs -> exists s a, In (s, a) l /\ r_name r = s_name s /\ r_port r = s_port s /\
       (s_path s = p -> r_key r = c))) starts all.
Proof.
  intros utf8 p c. induction starts as [|l starts IH]; intros d all d' hp hu h; cbn [life] in h.
  - apply pair_equal_spec in h as [<- <-]. split; [exact hp | constructor].
  - destruct (start_servers utf8 d l) as [rs d1] eqn:es. destruct (life utf8 d1 starts) as [al d2] eqn:el.
    apply pair_equal_spec in h as [<- <-].
    destruct (start_keeps _ _ _ _ _ _ _ hp hu es) as (h1 & h2 & h3).
    destruct (IH d1 al d2 h1 hu el) as [h4 h5]. split; [exact h4|]. constructor; [split; assumption | exact h5].
Qed.
Print Assumptions C137_kept.

(** A destination that was created and written is there afterwards. *)
Theorem C137_created : forall utf8 d p answers k d',
  load_or_create utf8 d p answers WDone = (Some k, d') -> d' p = Some k.
Proof.
  intros utf8 d p answers k d' h. unfold load_or_create in h.
  destruct (d p) as [x|] eqn:e; [destruct (utf8 x)|].
  - apply pair_equal_spec in h as [h <-]. congruence.
  - destruct (generate RETRY_COUNT answers); apply pair_equal_spec in h as [h <-]; [|discriminate].
    injection h as ->. cbn [write]. unfold put. rewrite seqb_refl. reflexivity.
  - destruct (generate RETRY_COUNT answers); apply pair_equal_spec in h as [h <-]; [|discriminate].
    injection h as ->. cbn [write]. unfold put. rewrite seqb_refl. reflexivity.
Qed.
Print Assumptions C137_created.

(** A new destination is the first one the router gives in three attempts. *)
Theorem C137_three_attempts : forall utf8 d p answers w k, d p = None ->
  (exists d', load_or_create utf8 d p answers w = (Some k, d')) <->
  exists i, (i < 3)%nat /\ nth_error answers i = Some (Some k) /\
    forall j, (j < i)%nat -> nth_error answers j = Some None.
Proof.
  intros utf8 d p answers w k h.
  assert (hg : generate 3 answers = Some k <-> exists i, (i < 3)%nat /\ nth_error answers i = Some (Some k) /\
    forall j, (j < i)%nat -> nth_error answers j = Some None).
  { generalize 3%nat. clear. intros n. revert answers. induction n as [|n IH]; intros answers.
    - cbn [generate]. split; [discriminate | intros (i & hi & _); lia].
    - destruct answers as [|[x|] answers]; cbn [generate].
      + split; [discriminate|]. intros (i & _ & e & _). destruct i; discriminate e.
      + split.
        * intros e. injection e as ->. exists 0%nat. split; [lia|]. split; [reflexivity|]. intros j hj. lia.
        * intros (i & _ & e & hj). destruct i as [|i].
          -- injection e as ->. reflexivity.
          -- specialize (hj 0%nat ltac:(lia)). discriminate hj.
      + rewrite IH. split.
        * intros (i & hi & e & hj). exists (S i). split; [lia|]. split; [exact e|].
          intros [|j] hl; [reflexivity | apply hj; lia].
        * intros (i & hi & e & hj). destruct i as [|i]; [discriminate e|].
          exists i. split; [lia|]. split; [exact e|]. intros j hl. apply (hj (S j)). lia. }
  unfold load_or_create. rewrite h. unfold RETRY_COUNT. rewrite <- hg.
  destruct (generate 3 answers) as [x|]; split.
  - intros [d' e]. injection e as -> _. reflexivity.
  - intros e. injection e as ->. eauto.
  - intros [d' e]. discriminate e.
  - discriminate.
Qed.
Print Assumptions C137_three_attempts.

Definition any_text (s : str) : bool := true.
Definition web : server := mkServer [119] 80 [107].
Example C137_example :
  fst (life any_text (fun _ => None)
         [[(web, ([None; Some [1; 2; 3]], WDone))]; [(web, ([], WNot))]; [(web, ([Some [9]], WDone))]]) =
  [[mkRunning [119] 80 [1; 2; 3]]; [mkRunning [119] 80 [1; 2; 3]]; [mkRunning [119] 80 [1; 2; 3]]].
Proof. reflexivity. Qed.

(** If the write fails, the tunnel runs all the same, and the next start makes another
    destination: the first one is lost. *)
Theorem C137_failed_write_refuted : forall utf8 d s k1 k2, d (s_path s) = None ->
  fst (life utf8 d [[(s, ([Some k1], WNot))]; [(s, ([Some k2], WDone))]]) =
  [[mkRunning (s_name s) (s_port s) k1]; [mkRunning (s_name s) (s_port s) k2]].
Proof.
  intros utf8 d s k1 k2 h. cbn [life start_servers]. unfold load_or_create at 1. rewrite h.
  cbn [RETRY_COUNT generate write]. unfold load_or_create. rewrite h. reflexivity.
Qed.
Print Assumptions C137_failed_write_refuted.

(** If it is cut short, the next starts take what there is for the destination, for ever: a part of
    a key, or nothing at all.  They never make a new one. *)
Theorem C137_cut_write_refuted : forall utf8 d s k n w answers, d (s_path s) = None ->
  utf8 (firstn n k) = true ->
  fst (life utf8 d [[(s, ([Some k], WCut n))]; [(s, (answers, w))]]) =
  [[mkRunning (s_name s) (s_port s) k]; [mkRunning (s_name s) (s_port s) (firstn n k)]].
Proof.
  intros utf8 d s k n w answers h hu. cbn [life start_servers]. unfold load_or_create at 1. rewrite h.
  cbn [RETRY_COUNT generate write]. unfold load_or_create, put. rewrite seqb_refl, hu. reflexivity.
Qed.
Print Assumptions C137_cut_write_refuted.
Example C137_cut_example :
  fst (life any_text (fun _ => None) [[(web, ([Some [1; 2; 3]], WCut 0))]; [(web, ([Some [9]], WDone))]]) =
  [[mkRunning [119] 80 [1; 2; 3]]; [mkRunning [119] 80 []]].
Proof. reflexivity. Qed.

(** * C138: client tunnels *)

Lemma run_cons : forall m ev rest, run m (ev :: rest) =
  (fst (run (fst (step m ev)) rest), snd (step m ev) ++ snd (run (fst (step m ev)) rest)).
Proof. intros m ev rest. cbn [run]. destruct (step m ev) as [m1 o]. cbn [fst]. destruct (run m1 rest). reflexivity. Qed.

(** what one event does to the tunnel it is about, and to the others *)
Lemma at_index_nth : forall m i ev t p, nth_error m i = Some (t, p) ->
  snd (at_index m i ev) = snd (step1 t p ev) /\
  nth_error (fst (at_index m i ev)) i = Some (t, fst (step1 t p ev)) /\
  (forall j, j <> i -> nth_error (fst (at_index m i ev)) j = nth_error m j).
Proof.
  induction m as [|[t0 p0] m IH]; intros i ev t p h; [destruct i; discriminate h|].
  destruct i as [|i]; cbn [nth_error at_index] in *.
  - injection h as -> ->. destruct (step1 t p ev) as [p' o]. split; [reflexivity|]. split; [reflexivity|].
    intros [|j] hj; [congruence | reflexivity].
  - destruct (IH i ev t p h) as (h1 & h2 & h3). destruct (at_index m i ev) as [m' o]. cbn [fst snd] in *.
    split; [exact h1|]. split; [exact h2|]. intros [|j] hj; [reflexivity|]. apply h3. congruence.
Qed.
Lemma at_index_none : forall m i ev, nth_error m i = None ->
  at_index m i ev = (m, match ev with EConn _ c => [Refused c] | _ => [] end).
Proof.
  induction m as [|[t0 p0] m IH]; intros i ev h; [reflexivity|].
  destruct i as [|i]; [discriminate h|]. cbn [at_index]. rewrite IH by exact h. reflexivity.
Qed.

(** Every tunnel of the configuration has one task at all times, in its place. *)
Theorem C138_never_lost : forall evs m, map fst (fst (run m evs)) = map fst m.
Proof.
  induction evs as [|ev rest IH]; intros m; [reflexivity|]. rewrite run_cons. cbn [fst]. rewrite IH.
  unfold step. generalize (index ev). induction m as [|[t p] m IHm]; intros [|i]; try reflexivity.
  - cbn [at_index]. destruct (step1 t p ev). reflexivity.
  - cbn [at_index]. specialize (IHm i). destruct (at_index m i ev). cbn [fst map] in *. rewrite IHm. reflexivity.
Qed.
Print Assumptions C138_never_lost.

(** And it can always get back to listening: from wherever it is there are events of this tunnel
    alone, none of them a connection, after which it listens. *)
Theorem C138_comes_back : forall m i t p, nth_error m i = Some (t, p) ->
  exists evs w, Forall (fun ev => index ev = i /\ forall c, ev <> EConn i c) evs /\
    nth_error (fst (run m evs)) i = Some (t, PListen w).
Proof.
  assert (one : forall m i t p ev, nth_error m i = Some (t, p) -> index ev = i ->
    nth_error (fst (step m ev)) i = Some (t, fst (step1 t p ev))).
  { intros m i t p ev h <-. unfold step. apply (at_index_nth m _ ev t p h). }
  assert (hb : forall m i t, nth_error m i = Some (t, PBind) ->
    nth_error (fst (run m [EBind i true])) i = Some (t, PListen [])).
  { intros m i t h. rewrite run_cons. cbn [run fst]. rewrite (one m i t PBind (EBind i true) h eq_refl). reflexivity. }
  intros m i t p h. destruct p as [|w|c w|c w|].
  - exists [EBind i true], []. split; [repeat constructor; discriminate | apply hb; exact h].
  - exists [], w. split; [constructor | exact h].
  - exists [EStream i true; EEnd i true; EBind i true], [].
    split; [repeat constructor; discriminate|].
    rewrite run_cons. cbn [fst]. rewrite run_cons. cbn [fst]. apply hb.
    pose proof (one m i t _ (EStream i true) h eq_refl) as h1. cbn [step1 fst] in h1.
    exact (one _ i t _ (EEnd i true) h1 eq_refl).
  - exists [EEnd i true; EBind i true], [].
    split; [repeat constructor; discriminate|].
    rewrite run_cons. cbn [fst]. apply hb. exact (one m i t _ (EEnd i true) h eq_refl).
  - exists [EWake i; EBind i true], [].
    split; [repeat constructor; discriminate|].
    rewrite run_cons. cbn [fst]. apply hb. exact (one m i t _ (EWake i) h eq_refl).
Qed.
Print Assumptions C138_comes_back.

(** The tunnels do not touch each other. *)
Theorem C138_apart : forall m evs i, Forall (fun ev => index ev <> i) evs ->
  nth_error (fst (run m evs)) i = nth_error m i.
Proof.
  intros m evs i h. revert m. induction h as [|ev rest hne _ IH]; intros m; [reflexivity|].
  rewrite run_cons. cbn [fst]. rewrite IH. unfold step.
  destruct (nth_error m (index ev)) as [[t p]|] eqn:e.
  - apply (at_index_nth m _ ev t p e). congruence.
  - rewrite at_index_none by exact e. reflexivity.
Qed.
Print Assumptions C138_apart.

(** A connection is joined only to the destination, and the port there, of the tunnel whose port it
    came to. *)
Definition own (evs : list event) (m : manager) : Prop :=
  forall i t p c, nth_error m i = Some (t, p) -> In c (held p) -> In (EConn i c) evs.
Lemma step1_held : forall t p ev c, In c (held (fst (step1 t p ev))) ->
  In c (held p) \/ ev = EConn (index ev) c.
Proof.
  intros t p ev c h. destruct ev as [i x|i ok|i|i ok|i ok|i].
  - destruct p as [|w|y w|y w|]; cbn [step1 fst held] in *; auto.
    + apply in_app_or in h as [h | [-> | []]]; auto.
    + destruct h as [h | h]; [left; left; exact h|]. apply in_app_or in h as [h | [-> | []]]; auto. left; right; exact h.
    + destruct h as [h | h]; [left; left; exact h|]. apply in_app_or in h as [h | [-> | []]]; auto. left; right; exact h.
  - destruct p; destruct ok; cbn in h; auto; contradiction.
  - destruct p as [|[|y w]|y w|y w|]; cbn in h |- *; auto.
  - destruct p; destruct ok; cbn in h; auto; contradiction.
  - destruct p; destruct ok; cbn in h; auto; contradiction.
  - destruct p; cbn in h; auto.
Qed.
Lemma step1_joined : forall t p ev c d q, In (Joined c d q) (snd (step1 t p ev)) ->
  d = t_dest t /\ q = dst_port t /\ In c (held p).
Proof.
  intros t p ev c d q h.
  assert (hd : forall l, ~ In (Joined c d q) (drop_all l)).
  { intros l i. unfold drop_all in i. apply in_map_iff in i as (x & e & _). discriminate e. }
  destruct ev as [i x|i ok|i|i ok|i ok|i].
  - destruct p; cbn in h; intuition discriminate.
  - destruct p; destruct ok; cbn in h; contradiction.
  - destruct p as [|[|y w]|y w|y w|]; cbn in h; contradiction.
  - destruct p as [|w|y w|y w|]; destruct ok; cbn [step1 snd] in h; try contradiction.
    + destruct h as [h | []]. injection h as <- <- <-. repeat split. left. reflexivity.
    + destruct h as [h | h]; [discriminate h | exfalso; exact (hd _ h)].
  - destruct p as [|w|y w|y w|]; cbn [step1 snd] in h; try contradiction.
    destruct h as [h | h]; [discriminate h | exfalso; exact (hd _ h)].
  - destruct p; cbn in h; contradiction.
Qed.
Theorem C138_right_destination : forall session l evs c d q,
  In (Joined c d q) (snd (run (start session l) evs)) ->
  exists i t, nth_error l i = Some t /\ In (EConn i c) evs /\ d = t_dest t /\ q = remote_port t.
Proof.
  intros session l. change remote_port with dst_port.
  assert (gen : forall evs pre m, (forall i t p, nth_error m i = Some (t, p) -> nth_error l i = Some t) ->
    own pre m -> forall c d q, In (Joined c d q) (snd (run m evs)) ->
    exists i t, nth_error l i = Some t /\ In (EConn i c) (pre ++ evs) /\ d = t_dest t /\ q = dst_port t).
  { induction evs as [|ev rest IH]; intros pre m hl ho c d q h; [destruct h|].
    rewrite run_cons in h. cbn [snd] in h. unfold step in h.
    destruct (nth_error m (index ev)) as [[t p]|] eqn:e.
    - destruct (at_index_nth m _ ev t p e) as (h1 & h2 & h3).
      apply in_app_or in h as [h | h].
      + rewrite h1 in h. apply step1_joined in h as (-> & -> & hh). exists (index ev), t.
        split; [eapply hl; exact e|]. split; [|auto]. apply in_or_app. left. eapply ho; [exact e | exact hh].
      + apply (IH (pre ++ [ev])) in h.
        * rewrite <- app_assoc in h. exact h.
        * intros i t' p' hi. destruct (PeanoNat.Nat.eq_dec i (index ev)) as [->|ne].
          -- rewrite h2 in hi. injection hi as <- _. eapply hl; exact e.
          -- rewrite h3 in hi by exact ne. eapply hl; exact hi.
        * intros i t' p' c' hi hc. apply in_or_app.
          destruct (PeanoNat.Nat.eq_dec i (index ev)) as [->|ne].
          -- rewrite h2 in hi. injection hi as <- <-. apply step1_held in hc as [hc | hc].
             ++ left. eapply ho; [exact e | exact hc].
             ++ right. left. exact hc.
          -- rewrite h3 in hi by exact ne. left. eapply ho; [exact hi | exact hc].
    - rewrite at_index_none in h by exact e. cbn [fst snd] in h. apply in_app_or in h as [h | h].
      + exfalso. destruct ev; cbn in h; intuition discriminate.
      + apply (IH (pre ++ [ev])) in h.
        * rewrite <- app_assoc in h. exact h.
        * exact hl.
        * intros i t' p' c' hi hc. apply in_or_app. left. eapply ho; [exact hi | exact hc]. }
  intros evs c d q h. apply (gen evs []) in h; [exact h| |].
  - intros i t p hi. unfold start in hi. destruct session; [|destruct i; discriminate hi].
    rewrite nth_error_map in hi. destruct (nth_error l i) as [t'|]; [|discriminate hi].
    injection hi as -> _. reflexivity.
  - intros i t p c' hi hc. unfold start in hi. destruct session; [|destruct i; discriminate hi].
    rewrite nth_error_map in hi. destruct (nth_error l i) as [t'|]; [|discriminate hi].
    injection hi as _ <-. destruct hc.
Qed.
Print Assumptions C138_right_destination.

(** Every connection is accounted for, once: it is over (refused, reset or closed), or held. *)
Definition all_held (m : manager) : list N := flat_map (fun x => held (snd x)) m.
Lemma over_app : forall a b, over (a ++ b) = over a ++ over b.
Proof. induction a as [|[] a IH]; intros b; cbn; rewrite ?IH; reflexivity. Qed.
Lemma over_drop : forall l, over (drop_all l) = l.
Proof.
  unfold drop_all. induction l as [|x l IH]; [reflexivity|]. cbn [map over]. rewrite IH. reflexivity.
Qed.
Lemma step1_account : forall t p ev,
  Permutation (held p ++ arrived [ev]) (over (snd (step1 t p ev)) ++ held (fst (step1 t p ev))).
Proof.
  intros t p ev. destruct ev as [i x|i ok|i|i ok|i ok|i]; cbn [arrived]; rewrite ?app_nil_r.
  - destruct p; cbn [step1 fst snd over held app]; try reflexivity.
  - destruct p; destruct ok; reflexivity.
  - destruct p as [|[|y w]|y w|y w|]; reflexivity.
  - destruct p as [|w|y w|y w|]; destruct ok; cbn [step1 fst snd over held app restart]; try reflexivity.
    rewrite over_drop, app_nil_r. reflexivity.
  - destruct p as [|w|y w|y w|]; destruct ok; cbn [step1 fst snd over held app restart]; try reflexivity;
      rewrite over_drop, app_nil_r; reflexivity.
  - destruct p; reflexivity.
Qed.
Lemma step_account : forall m i ev,
  Permutation (all_held m ++ arrived [ev]) (over (snd (at_index m i ev)) ++ all_held (fst (at_index m i ev))).
Proof.
  induction m as [|[t p] m IH]; intros i ev.
  - cbn [at_index fst snd all_held flat_map app]. rewrite app_nil_r. destruct ev; reflexivity.
  - destruct i as [|i]; cbn [at_index].
    + pose proof (step1_account t p ev) as h. destruct (step1 t p ev) as [p' o]. cbn [fst snd] in *.
      unfold all_held. cbn [flat_map snd]. fold (all_held m).
      rewrite (app_assoc (over o)), <- h. rewrite <- !app_assoc.
      apply Permutation_app_head. apply Permutation_app_comm.
    + specialize (IH i ev). destruct (at_index m i ev) as [m' o]. cbn [fst snd] in *.
      unfold all_held. cbn [flat_map snd]. fold (all_held m). fold (all_held m').
      rewrite <- app_assoc, IH. rewrite !app_assoc. apply Permutation_app_tail. apply Permutation_app_comm.
Qed.
Theorem C138_accounted : forall evs m,
  Permutation (all_held m ++ arrived evs) (over (snd (run m evs)) ++ all_held (fst (run m evs))).
Proof.
  induction evs as [|ev rest IH]; intros m.
  - cbn. rewrite app_nil_r. reflexivity.
  - rewrite run_cons. cbn [fst snd]. rewrite over_app, <- app_assoc.
    rewrite <- IH. unfold step. pose proof (step_account m (index ev) ev) as h.
    rewrite app_assoc, <- h, <- app_assoc. apply Permutation_app_head.
    destruct ev; reflexivity.
Qed.
Print Assumptions C138_accounted.

Definition irc : client := mkClient 6668 [7; 7] (Some 6667).
Definition git : client := mkClient 9418 [8] None.
Example C138_example :
  run (start true [irc; git]) [EBind 1 true; EConn 1 5; EAccept 1; EStream 1 true; EConn 0 6; EEnd 1 true] =
  ([(irc, PBind); (git, PBind)], [Joined 5 [8] 0; Refused 6; Closed 5]).
Proof. reflexivity. Qed.

(** A tunnel carries one connection at a time, and the others do not wait their turn: although
    nothing fails, a connection that arrives while another is carried is reset when that one ends. *)
Theorem C138_one_at_a_time_refuted : forall t a b,
  let evs := [EBind 0 true; EConn 0 a; EAccept 0; EStream 0 true; EConn 0 b; EEnd 0 true] in
  Forall fine evs /\
  run (start true [t]) evs =
    ([(t, PBind)], [Joined a (t_dest t) (remote_port t); Closed a; Reset b]).
Proof. intros t a b evs. split; [repeat constructor | reflexivity]. Qed.
Print Assumptions C138_one_at_a_time_refuted.

(** If the session with the router cannot be made at the start, no tunnel is ever served. *)
Theorem C138_no_session_refuted : forall l evs,
  fst (run (start false l) evs) = [] /\ over (snd (run (start false l) evs)) = arrived evs.
Proof.
  intros l. induction evs as [|ev rest [h1 h2]]; [split; reflexivity|].
  rewrite run_cons. cbn [fst snd]. assert (e : fst (step (start false l) ev) = start false l) by
    (unfold step; destruct (index ev); reflexivity).
  rewrite e. split; [exact h1|]. rewrite over_app, h2. unfold step, start. cbn [at_index snd].
  destruct ev; reflexivity.
Qed.
Print Assumptions C138_no_session_refuted.
