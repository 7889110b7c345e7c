(** What SAMv3 clients rely on at the server: C103 to C106. *)
From Coq Require Import List NArith PeanoNat Bool Lia.
From Verif Require Import ListUtil NMap RouteProofs DestProofs SamSrvModel SamSrvSpec SamSrvProofs SamSrvProofs2.
Import ListNotations.
Open Scope N_scope.

(** ** C103: ids and destinations *)

(** At any time the sessions that have been begun and not forgotten have different ids and
    different destinations, and that alone decides what SESSION CREATE is told. *)
Theorem C103_admission : forall book ops st os, run (sv_new book) ops = (st, os) ->
  let hs := holding (combine ops os) in
  NoDup (ids hs) /\ NoDup (dests hs)
  /\ forall sock sid d ok, snd (step st (Create sock sid d ok)) = verdict hs sock sid d ok.
Proof.
  intros book ops st os R hs. pose proof (keeps_run _ _ _ _ _ (keeps_new book) R) as K. fold hs in K.
  split; [apply K|]. split; [apply K|]. intros sock sid d ok.
  destruct (step st (Create sock sid d ok)) as [st' o] eqn:S1. destruct (keeps_step _ _ _ _ _ K S1) as [_ C]. cbn [snd]. eauto.
Qed.
Print Assumptions C103_admission.

Definition running (v : view) : bool := match v with Waiting _ | Up _ _ => true | _ => false end.

Lemma alive_step_ok st al op st' o : wf st -> step st op = (st', o) -> (forall s, smem s al = running (vw s st)) ->
  (forall sock sid d ok, op = Create sock sid d ok -> is_begun o = true -> vw sid st = Nobody) ->
  forall s, smem s (alive_step al (op, o)) = running (vw s st').
Proof.
  intros W H A C s. destruct (step_facts _ _ _ _ W H) as (_ & _ & _ & V & O).
  assert (Fl : forall x, smem s (filter (fun y => negb (y =? x)) al) = negb (x =? s) && smem s al).
  { intros x. induction al as [|a al' IH]; cbn [filter smem]; [now rewrite andb_false_r|].
    assert (IH' : smem s (filter (fun y => negb (y =? x)) al') = negb (x =? s) && smem s al').
    { clear. induction al' as [|b t IHt]; cbn [filter smem]; [now rewrite andb_false_r|].
      destruct (N.eqb_spec b x) as [->|]; cbn [negb smem]; rewrite IHt.
      - destruct (N.eqb_spec s x) as [->|]; [now rewrite N.eqb_refl|reflexivity].
      - destruct (N.eqb_spec s b) as [->|]; cbn [orb]; auto. destruct (N.eqb_spec x b); [congruence|reflexivity]. }
    destruct (N.eqb_spec a x) as [->|]; cbn [negb smem]; rewrite IH'.
    - destruct (N.eqb_spec s x) as [->|]; [now rewrite N.eqb_refl|reflexivity].
    - destruct (N.eqb_spec s a) as [->|]; cbn [orb]; auto. destruct (N.eqb_spec x a); [congruence|reflexivity]. }
  rewrite V. destruct op as [sock sid d ok|sock sid h opts|sock sid opts|sock sid port opts|sid d x|sock d|sid|sid|sid|sid|sid].
  - clear O. cbn [view_step alive_step]. destruct (is_begun o) eqn:B.
    + specialize (C _ _ _ _ eq_refl eq_refl). destruct o as [|[] [|? ?]]; try discriminate B. rewrite andb_true_r. cbn [smem]. rewrite (N.eqb_sym sid s).
      destruct (N.eqb_spec s sid); cbn [orb]; auto.
    + rewrite andb_false_r. destruct o as [|[] [|? ?]]; try discriminate B; apply A.
  - cbn [alive_step]. rewrite A. cbn [view_step]. destruct (vw s st); auto. destruct (order _ _) as [[? ?]|]; auto. destruct (_ && _); auto.
  - cbn [alive_step]. rewrite A. cbn [view_step]. destruct (vw s st); auto. destruct (order _ _) as [[? ?]|]; auto. destruct (_ && _); auto.
  - cbn [alive_step]. rewrite A. cbn [view_step]. destruct (vw s st); auto. destruct (order _ _) as [[? ?]|]; auto. destruct (_ && _); auto.
  - cbn [alive_step]. rewrite A. cbn [view_step]. destruct (vw s st); auto. destruct (order _ _) as [[? ?]|]; auto. destruct (_ && _); auto.
  - cbn [alive_step]. rewrite A. cbn [view_step]. destruct (vw s st); auto. destruct (order _ _) as [[? ?]|]; auto. destruct (_ && _); auto.
  - cbn [alive_step]. rewrite A. cbn [view_step]. destruct (vw s st); auto; destruct (sid =? s); auto.
  - specialize (O eq_refl). cbn [result order] in O. cbn [alive_step view_step]. destruct (vw sid st) eqn:E; subst o; rewrite ?Fl, A;
      destruct (N.eqb_spec sid s) as [<-|]; cbn [negb andb]; rewrite ?E; auto; destruct (vw s st); auto.
  - cbn [alive_step]. rewrite A. cbn [view_step order]. destruct (vw s st) as [|k| |k [|c q]|]; auto; destruct (sid =? s); auto.
  - specialize (O eq_refl). cbn [result order] in O. cbn [alive_step view_step]. destruct (vw sid st) eqn:E; subst o; rewrite ?Fl, A;
      destruct (N.eqb_spec sid s) as [<-|]; cbn [negb andb]; rewrite ?E; auto; destruct (vw s st); auto.
  - cbn [alive_step]. rewrite A. cbn [view_step]. destruct (vw s st); auto; destruct (sid =? s); auto.
Qed.

Lemma alive_run ops : forall st hs al st' os, keeps st hs -> (forall s, smem s al = running (vw s st)) -> run st ops = (st', os) ->
  forall s, smem s (fold_left alive_step (combine ops os) al) = running (vw s st').
Proof.
  induction ops as [|op ops IH]; intros st hs al st' os K A R s.
  - cbn [run] in R. apply pair_equal_spec in R as [<- <-]. apply A.
  - apply run_step in R as (st1 & o & os' & S1 & R & ->). destruct (keeps_step _ _ _ _ _ K S1) as [K1 C]. cbn [combine fold_left].
    eapply IH; [exact K1| |exact R]. apply (alive_step_ok st al op st1 o); auto; [apply K|].
    intros sock sid d ok -> B. rewrite (C _ _ _ _ eq_refl) in B. unfold verdict in B. rewrite (k_ids _ _ K) in B.
    destruct (vw sid st); auto; discriminate B.
Qed.

(** A session that has a task keeps its id and destination to itself: whoever asks for its id is
    told DUPLICATE_ID, and whoever asks for its destination under another id DUPLICATE_DEST. *)
Theorem C103_to_itself : forall book ops st os, run (sv_new book) ops = (st, os) ->
  let h := combine ops os in
  forall sid, In sid (alive h) -> exists d, In (sid, d) (holding h)
   /\ (forall sock d' ok, snd (step st (Create sock sid d' ok)) = [DupId sock])
   /\ (forall sock sid' ok, ~ In sid' (ids (holding h)) -> snd (step st (Create sock sid' d ok)) = [DupDest sock]).
Proof.
  intros book ops st os R h sid A. pose proof (keeps_run _ _ _ _ _ (keeps_new book) R) as K.
  pose proof (alive_run _ _ _ [] _ _ (keeps_new book) (fun _ => eq_refl) R sid) as E.
  apply smem_In in A. unfold h, alive in A. rewrite E in A.
  destruct (C103_admission book ops st os R) as (_ & _ & V). fold h in V. fold (holding (combine ops os)) in K. fold h in K.
  assert (T : smem sid (ids (holding h)) = true) by (rewrite (k_ids _ _ K); destruct (vw sid st); auto).
  pose proof T as T'. apply smem_In, in_map_iff in T' as ([x d] & Ex & Hin). cbn [fst] in Ex. subst x.
  exists d. split; auto. split.
  - intros sock d' ok. rewrite V. unfold verdict. now rewrite T.
  - intros sock sid' ok N1. rewrite V. unfold verdict. apply smem_false in N1. rewrite N1.
    assert (smem d (dests (holding h)) = true) as ->; [|reflexivity]. apply smem_In. change d with (snd (sid, d)). now apply in_map.
Qed.
Print Assumptions C103_to_itself.

(** An id whose session is over can be used again, and its destination too. *)
Theorem C103_free_again : forall book ops st os sid st' o, run (sv_new book) ops = (st, os) ->
  step st (Reap sid) = (st', [o]) -> exists d, In (sid, d) (holding (combine ops os)) /\
  forall sock ok, snd (step st' (Create sock sid d ok)) = if ok then [Begun sid] else [Shut sock].
Proof.
  intros book ops st os sid st' o R S1. pose proof (keeps_run _ _ _ _ _ (keeps_new book) R) as K. fold (holding (combine ops os)) in K.
  destruct (step_facts _ _ _ _ (k_wf _ _ K) S1) as (_ & _ & _ & _ & O). specialize (O eq_refl). cbn [result order] in O.
  destruct (vw sid st) eqn:V; try discriminate O. injection O as ->.
  assert (T : smem sid (ids (holding (combine ops os))) = true) by (rewrite (k_ids _ _ K), V; auto).
  apply smem_In, in_map_iff in T as ([x d] & Ex & Hin). cbn [fst] in Ex. subst x. exists d. split; auto.
  destruct (keeps_step _ _ _ _ _ K S1) as [K1 _]. cbn [hold_step] in K1. intros sock ok.
  destruct (step st' (Create sock sid d ok)) as [st2 o2] eqn:S2. destruct (keeps_step _ _ _ _ _ K1 S2) as [_ C]. rewrite (C _ _ _ _ eq_refl).
  unfold verdict. set (hs := filter _ _).
  assert (N1 : smem sid (ids hs) = false).
  { apply smem_false. intros X. apply in_map_iff in X as ([a b] & E & X). cbn [fst] in E. subst a. apply filter_In in X as [_ X]. cbn [fst] in X. now rewrite N.eqb_refl in X. }
  assert (N2 : smem d (dests hs) = false).
  { apply smem_false. intros X. apply in_map_iff in X as ([a b] & E & X). cbn [snd] in E. subst b. apply filter_In in X as [X F]. cbn [fst] in F.
    assert (a = sid); [|subst a; now rewrite N.eqb_refl in F].
    pose proof (k_nd2 _ _ K) as ND. clear - ND X Hin. induction (holding (combine ops os)) as [|[p q] t IH]; [contradiction|].
    cbn [dests map snd] in ND. inversion ND as [|? ? Hn Hd]; subst.
    destruct X as [[= -> ->]|X], Hin as [E|Hin]; try congruence.
    - exfalso. apply Hn. change d with (snd (sid, d)). now apply in_map.
    - injection E as -> ->. exfalso. apply Hn. change d with (snd (a, d)). now apply in_map.
    - now apply IH. }
  rewrite N1, N2. destruct ok; reflexivity.
Qed.
Print Assumptions C103_free_again.

(** The defect: a session whose tunnels could not be built keeps its id and its destination for
    ever, although it has no task: whatever happens afterwards, nobody can use the id again. *)
Theorem C103_refuted_failed_session_keeps_id : forall book ops st os sid st1 k ops' st' os',
  run (sv_new book) ops = (st, os) -> step st (Failed sid) = (st1, [Shut k]) -> run st1 ops' = (st', os') ->
  ~ In sid (alive (combine (ops ++ Failed sid :: ops') (os ++ [Shut k] :: os')))
  /\ forall sock d ok, snd (step st' (Create sock sid d ok)) = [DupId sock].
Proof.
  intros book ops st os sid st1 k ops' st' os' R S1 R'.
  pose proof (keeps_run _ _ _ _ _ (keeps_new book) R) as K. fold (holding (combine ops os)) in K.
  destruct (step_facts _ _ _ _ (k_wf _ _ K) S1) as (_ & _ & _ & V & O). specialize (O eq_refl). cbn [result order] in O.
  destruct (vw sid st) eqn:E; try discriminate O. specialize (V sid). rewrite E in V. cbn [view_step is_begun] in V. rewrite N.eqb_refl in V.
  destruct (keeps_step _ _ _ _ _ K S1) as [K1 _].
  pose proof (stuck_run _ _ _ _ _ _ K1 V R') as St. pose proof (keeps_run _ _ _ _ _ K1 R') as K2.
  split.
  - assert (Ra : run (sv_new book) (ops ++ Failed sid :: ops') = (st', os ++ [Shut k] :: os')).
    { clear - R S1 R'. revert os R. generalize (sv_new book). induction ops as [|op ops IH]; intros s0 os R.
      - cbn [run] in R. apply pair_equal_spec in R as [-> <-]. cbn [app run]. rewrite S1, R'. reflexivity.
      - apply run_step in R as (s1 & o & os1 & Sa & R & ->). cbn [app run]. rewrite Sa, (IH _ _ R). reflexivity. }
    pose proof (alive_run _ _ _ [] _ _ (keeps_new book) (fun _ => eq_refl) Ra sid) as A. rewrite St in A. cbn [running] in A.
    apply smem_false. exact A.
  - intros sk d ok. destruct (step st' (Create sk sid d ok)) as [st2 o2] eqn:S2. destruct (keeps_step _ _ _ _ _ K2 S2) as [_ C].
    cbn [snd]. rewrite (C _ _ _ _ eq_refl). unfold verdict. now rewrite (k_ids _ _ K2), St.
Qed.
Print Assumptions C103_refuted_failed_session_keeps_id.

(** Two sessions are begun, one gets its tunnels, is used and ends; the other fails. *)
Definition ops103 : list sop :=
  [Create 1 7 70 true; Create 2 7 71 true; Create 3 8 70 true; Create 4 8 80 true; Built 7; Gone 7; Reap 7; Failed 8; Create 5 7 70 true; Create 6 8 80 true].
Example C103_ex : snd (run (sv_new true) ops103) =
  [[Begun 7]; [DupId 2]; [DupDest 3]; [Begun 8]; [Live 7]; [Shut 1]; [Over 7]; [Shut 4]; [Begun 7]; [DupId 6]]
  /\ alive (combine ops103 (snd (run (sv_new true) ops103))) = [7].
Proof. split; reflexivity. Qed.

(** ** C104: requests go to the session they name *)

(** Each session, by itself: what comes out of any item that is not a SESSION CREATE is what the
    session it is for, seen from its own history alone, gives. *)
Theorem C104_per_session : forall book ops st os op, run (sv_new book) ops = (st, os) -> creates op = false ->
  let h := combine ops os in
  snd (step st op) = result book (looks book h) (fun sid => life book sid [] Nobody h) op.
Proof.
  intros book ops st os op R C h. destruct (run_view _ _ _ _ (k_wf _ _ (keeps_new book)) R) as (W & B & L & V).
  destruct (step st op) as [st' o] eqn:S1. destruct (step_facts _ _ _ _ W S1) as (_ & _ & _ & _ & O). cbn [snd]. rewrite (O C), B, L.
  cbn [sv_book sv_new sv_look] in *. fold h in V |- *. unfold looks.
  unfold result. destruct (order _ op) as [[sid c]|]; [rewrite V; reflexivity|]. destruct op; auto; rewrite V; reflexivity.
Qed.
Print Assumptions C104_per_session.

(** A session is handed only what clients asked of it by name. *)
Theorem C104_only_what_was_asked : forall book ops st os sid, run (sv_new book) ops = (st, os) ->
  Forall (asked_for sid ops) (handed sid os).
Proof.
  assert (M : forall sid a b c, asked_for sid a c -> asked_for sid (a ++ b) c).
  { intros sid a b c. destruct c; cbn [asked_for]; rewrite ?in_app_iff; intros H; auto.
    destruct H as [H|[H|(n & H1 & H2)]]; auto. right. right. exists n. rewrite !in_app_iff. auto. }
  assert (G : forall ops pre st st' os, wf st -> run st ops = (st', os) ->
    (forall sid k q, vw sid st = Up k q -> Forall (asked_for sid pre) q) ->
    (forall s sid o, nget s (sv_look st) = Some (sid, o) -> exists n, In (Connect s sid (HName n) o) pre) ->
    forall sid, Forall (asked_for sid (pre ++ ops)) (handed sid os)).
  { induction ops as [|op ops IH]; intros pre st st' os W R Q L sid.
    - cbn [run] in R. apply pair_equal_spec in R as [<- <-]. constructor.
    - apply run_step in R as (st1 & o & os' & S1 & R & ->). destruct (step_facts _ _ _ _ W S1) as (W1 & B1 & L1 & V1 & O1).
      unfold handed. cbn [concat]. rewrite flat_map_app. apply Forall_app. split.
      + (* handed by this item *)
        destruct (creates op) eqn:C.
        * destruct op; try discriminate C. cbn [step] in S1. unfold on_create in S1.
          destruct (_ || _); [apply pair_equal_spec in S1 as [_ <-]; constructor|].
          destruct (smem _ _); [apply pair_equal_spec in S1 as [_ <-]; constructor|].
          destruct (negb _); apply pair_equal_spec in S1 as [_ <-]; constructor.
        * rewrite (O1 eq_refl). clear O1. unfold result.
          assert (Wst : forall c, flat_map (fun o => match o with Handed s c => if s =? sid then [c] else [] | _ => [] end) [waste c] = [])
            by (intros []; reflexivity).
          assert (Wsts : forall q, flat_map (fun o => match o with Handed s c => if s =? sid then [c] else [] | _ => [] end) (map waste q) = [])
            by (induction q as [|[] q IHq]; auto).
          destruct (order (sv_look st) op) as [[s c]|]; [destruct (vw s st); try (rewrite Wst; constructor); destruct (Nat.ltb _ _); [constructor|rewrite Wst; constructor]|].
          destruct op as [sock i d ok|sock i h opts|sock i opts|sock i port opts|i d x|sock d|i|i|i|i|i]; try constructor.
          -- destruct h; try constructor. destruct (sv_book st); constructor.
          -- destruct (nget sock (sv_look st)); constructor.
          -- destruct (vw i st); constructor.
          -- destruct (vw i st); constructor.
          -- destruct (vw i st) as [|k| |k [|c q]|] eqn:E; try constructor. cbn [flat_map]. destruct (N.eqb_spec i sid) as [->|]; [|constructor].
             cbn [app]. constructor; [|constructor]. apply Q in E. inversion E; subst. now apply M.
          -- destruct (vw i st); try constructor. cbn [flat_map app]. rewrite Wsts. constructor.
          -- destruct (vw i st); constructor.
      + replace (pre ++ op :: ops) with ((pre ++ [op]) ++ ops) by (rewrite <- app_assoc; reflexivity).
        refine (IH (pre ++ [op]) _ _ _ W1 R _ _ sid).
        * intros i k q E. rewrite V1 in E.
          assert (Fin : forall l, Forall (asked_for i pre) l -> Forall (asked_for i (pre ++ [op])) l)
            by (intros l Hl; eapply Forall_impl; [|exact Hl]; intros; now apply M).
          assert (Ord : forall c, order (sv_look st) op = Some (i, c) -> asked_for i (pre ++ [op]) c).
          { intros c Hc. destruct op as [sock j d ok|sock j h opts|sock j opts|sock j port opts|j d x|sock d|j|j|j|j|j]; cbn [order] in Hc; try discriminate Hc.
            - destruct h; injection Hc as -> <- || discriminate Hc; cbn [asked_for]; rewrite !in_app_iff; cbn; auto.
            - injection Hc as -> <-. cbn [asked_for]. rewrite !in_app_iff; cbn; auto.
            - injection Hc as -> <-. cbn [asked_for]. rewrite !in_app_iff; cbn; auto.
            - injection Hc as -> <-. cbn [asked_for]. rewrite !in_app_iff; cbn; auto.
            - destruct d as [d|]; [|discriminate]. destruct (nget sock (sv_look st)) as [[j o0]|] eqn:E0; [|discriminate]. injection Hc as -> <-.
              cbn [asked_for]. right. right. destruct (L _ _ _ E0) as [n Hn]. exists n. rewrite !in_app_iff. cbn. auto. }
          assert (Gen : match order (sv_look st) op with
                        | Some (s, c) => match vw i st with Up k q => if (s =? i) && (Nat.ltb (length q) 256) then Up k (q ++ [c]) else Up k q | v => v end
                        | None => vw i st end = Up k q -> Forall (asked_for i (pre ++ [op])) q).
          { destruct (order (sv_look st) op) as [[s c]|] eqn:Eo.
            - destruct (vw i st) as [|k0| |k0 q0|] eqn:Ev; try discriminate. destruct (N.eqb_spec s i) as [->|]; cbn [andb].
              + destruct (Nat.ltb _ _); intros X; injection X as _ <-; [|apply Fin; eauto]. apply Forall_app. split; [apply Fin; eauto|]. constructor; [auto|constructor].
              + intros X; injection X as _ <-. apply Fin; eauto.
            - intros Ev. apply Fin. eauto. }
          destruct op as [sock j d ok|sock j h opts|sock j opts|sock j port opts|j d x|sock d|j|j|j|j|j]; cbn [view_step order] in E, Gen.
          -- destruct (_ && _); [discriminate|]. auto.
          -- apply Gen. destruct h; destruct (vw i st); auto.
          -- apply Gen. destruct (vw i st); auto.
          -- apply Gen. destruct (vw i st); auto.
          -- apply Gen. destruct (vw i st); auto.
          -- apply Gen. destruct d; [destruct (nget sock (sv_look st)) as [[? ?]|]|]; destruct (vw i st); auto.
          -- destruct (vw i st) eqn:Ev; try discriminate E; [|apply Gen; auto]. destruct (j =? i); [injection E as _ <-; constructor|discriminate].
          -- destruct (vw i st) eqn:Ev; try discriminate E; [|apply Gen; auto]. destruct (j =? i); discriminate.
          -- destruct (vw i st) as [|k0| |k0 [|c q0]|] eqn:Ev; try discriminate E; [apply Gen; auto|]. destruct (j =? i); [|apply Gen; auto].
             injection E as _ <-. apply Q in Ev. inversion Ev; subst. now apply Fin.
          -- destruct (vw i st) eqn:Ev; try discriminate E. destruct (j =? i); [discriminate|apply Gen; auto].
          -- destruct (vw i st) eqn:Ev; try discriminate E; [apply Gen; auto|]. destruct (j =? i); discriminate.
        * intros s i o0 E. rewrite L1 in E.
          assert (Fin : (exists n, In (Connect s i (HName n) o0) pre) -> exists n, In (Connect s i (HName n) o0) (pre ++ [op]))
            by (intros [n Hn]; exists n; apply in_or_app; auto).
          destruct op as [sock j d ok|sock j h opts|sock j opts|sock j port opts|j d x|sock d|j|j|j|j|j]; cbn [look_step] in E; try (apply Fin; eapply L; exact E).
          -- destruct h as [d|d|n]; try (apply Fin; eapply L; exact E). destruct (sv_book st); [|apply Fin; eapply L; exact E].
             rewrite nget_nput in E. destruct (N.eqb_spec s sock) as [->|]; [|apply Fin; eapply L; exact E].
             injection E as -> ->. exists n. apply in_or_app. right. now left.
          -- rewrite nget_ndel in E. destruct (s =? sock); [discriminate|]. apply Fin; eapply L; exact E. }
  intros book ops st os sid R. apply (G ops [] (sv_new book) st os (k_wf _ _ (keeps_new book)) R); cbn; discriminate.
Qed.
Print Assumptions C104_only_what_was_asked.

(** Two sessions; each is handed its own requests, in order, and one that comes through the
    address book when the answer is there.  A request for a session still being built is closed. *)
Definition ops104 : list sop :=
  [Create 1 7 70 true; Create 2 8 80 true; Accept 3 8 0; Built 7; Built 8; Connect 4 7 (HName 99) 5; Accept 5 7 0;
   Datagram 8 33 [1;2]; Forward 6 8 4444 0; Resolved 4 (Some 42); Take 7; Take 8; Take 7; Take 8; Take 8].
Example C104_ex : snd (run (sv_new true) ops104) =
  [[Begun 7]; [Begun 8]; [Shut 3]; [Live 7]; [Live 8]; [Asked 99]; []; []; []; [];
   [Handed 7 (KAccept 5 0)]; [Handed 8 (KDatagram 33 [1;2])]; [Handed 7 (KConnect 4 42 5)]; [Handed 8 (KForward 6 4444 0)]; []].
Proof. reflexivity. Qed.

(** ** C105: every client socket ends in one way *)

Theorem C105_one_end : forall book ops st os, run (sv_new book) ops = (st, os) -> NoDup (flat_map brought ops) ->
  forall s, (count_occ N.eq_dec (held st) s + count_occ N.eq_dec (flat_map parted (concat os)) s
             = if in_dec N.eq_dec s (flat_map brought ops) then 1 else 0)%nat.
Proof.
  intros book ops st os R ND s. pose proof (run_socks ops _ _ _ (tidy_new book) R ND (fun x _ X => X) s) as E.
  unfold cnt in E. rewrite E. cbn [held sv_new sv_active sv_building sv_look total nkeys map app count_occ plus].
  destruct (in_dec N.eq_dec s (flat_map brought ops)) as [I|I].
  - pose proof (proj1 (NoDup_count_occ N.eq_dec _) ND s). apply (count_occ_In N.eq_dec) in I. lia.
  - now apply count_occ_not_In.
Qed.
Print Assumptions C105_one_end.

(** Not every request is answered: one that names a session that is not there, is still being
    built, or is behind with 256 commands is closed with nothing written to the client. *)
Theorem C105_refuted_closed_without_reply : forall book ops st os sock sid d o, run (sv_new book) ops = (st, os) ->
  match life book sid [] Nobody (combine ops os) with Up _ q => (256 <= length q)%nat | _ => True end ->
  snd (step st (Connect sock sid (HDest d) o)) = [Shut sock]
  /\ snd (step st (Accept sock sid o)) = [Shut sock] /\ snd (step st (Forward sock sid d o)) = [Shut sock].
Proof.
  intros book ops st os sock sid d o R H.
  assert (Q : forall c, match life book sid [] Nobody (combine ops os) with
    | Up _ q => if Nat.ltb (length q) 256 then [] else [waste c] | _ => [waste c] end = [waste c]).
  { intros c. destruct (life _ _ _ _ _); auto. destruct (Nat.ltb_spec (length q) 256); auto. lia. }
  pose proof (fun op => C104_per_session book ops st os op R) as P. cbv zeta in P.
  repeat split; rewrite P by reflexivity; cbn [result order]; rewrite Q; reflexivity.
Qed.
Print Assumptions C105_refuted_closed_without_reply.

Example C105_ex : let r := run (sv_new true) (ops104 ++ [Connect 9 7 (HB32 42) 5; Gone 7; Create 10 8 1 true]) in
  flat_map parted (concat (snd r)) = [3; 5; 4; 6; 1; 9; 10] /\ held (fst r) = [2].
Proof. split; reflexivity. Qed.

(** ** C106: datagrams to clients *)

(** The datagrams the sessions hand over are written in the order in which they were handed over,
    each tried exactly once, and none is lost unless the channel, which has 1024 places, is full. *)
Theorem C106_in_order : forall ops w o, w_run w_new ops = (w, o) ->
  exists took, subseq took (offered ops) /\ map fst o ++ w_waiting w = took
   /\ ((length (offered ops) <= 1024)%nat -> took = offered ops).
Proof. intros ops w o R. apply w_run_spec in R as (took & A & B & C). exists took. cbn [w_new w_chan w_waiting w_cur app length plus] in *. auto. Qed.
Print Assumptions C106_in_order.

(** A socket that is ready gets everything that is waiting in one poll. *)
Theorem C106_all_of_it : forall w rs w' o, w_step w (WPoll rs) = (w', o) ->
  (forall r, In r rs -> r = Wrote) -> (length (w_waiting w) <= length rs)%nat ->
  w_waiting w' = [] /\ o = map (fun m => (m, true)) (w_waiting w).
Proof.
  intros w rs w' o H A L. cbn [w_step] in H. pose proof (w_loop_spec _ _ _ _ _ H) as E. apply w_loop_all in H as [-> F]; auto.
  split; [reflexivity|]. fold (w_waiting w) in E. rewrite <- E. cbn [w_waiting w_cur w_chan app]. rewrite !app_nil_r. clear - F.
  induction o as [|[m b] o IH]; auto. cbn [map]. inversion F as [|? ? X Y]; subst. cbn [snd] in X. subst b. rewrite <- IH by auto. reflexivity.
Qed.
Print Assumptions C106_all_of_it.

Example C106_ex : w_run w_new [Enqueue 5 [1]; Enqueue 6 [2]; WPoll [Wrote; Wait]; Enqueue 5 [3]; WPoll [Broke; Wrote]] =
  (mkWrt None [], [(5, [1], true); (6, [2], false); (5, [3], true)]).
Proof. reflexivity. Qed.
