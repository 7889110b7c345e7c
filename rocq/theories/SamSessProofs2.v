(** Sockets and datagrams of a session. *)
From Coq Require Import Ascii String.
From Coq Require Import List NArith PeanoNat Bool Lia.
From Verif Require Import ListUtil Bytes NMap EncModel PrimModel I2cpModel SamModel RouteProofs DestModel DestSpec DestProofs DestProofs2 SamSessModel SamSessSpec SamSessProofs.
From Verif Require SamSrvSpec SamSrvProofs2.
Import ListNotations.
Local Open Scope list_scope.
Open Scope N_scope.

Notation cnt := SamSrvProofs2.cnt.
Definition socks (_ : N) (p : pend) : list N := flat_map SamSessSpec.sock_of (p_streams p).

Lemma waiting_total s : waiting_socks s = SamSrvSpec.total socks (x_out s).
Proof. unfold waiting_socks. induction (x_out s) as [|[k v] t IH]; cbn; auto. now rewrite IH. Qed.

Lemma old_socks d (m : nmap pend) : SamSrvProofs2.old socks d m = flat_map SamSessSpec.sock_of (p_streams (entry d m)).
Proof. unfold SamSrvProofs2.old, entry, socks. destruct (nget d m); reflexivity. Qed.

Lemma waits_socks l : map fst (waits l) = flat_map SamSessSpec.sock_of l.
Proof. unfold waits. induction l as [|[]]; auto. cbn. now rewrite IHl. Qed.

Lemma push_cnt k d p m : sorted (nkeys m) ->
  (cnt k (SamSrvSpec.total socks (push_stream d p m)) = cnt k (SamSrvSpec.total socks m) + cnt k (SamSessSpec.sock_of p))%nat.
Proof.
  intros Sd. unfold push_stream. pose proof (SamSrvProofs2.total_put socks k d (mkPend (p_streams (entry d m) ++ [p]) (p_dgrams (entry d m))) m Sd) as P.
  rewrite old_socks in P. unfold socks in P at 3. cbn [p_streams] in P. rewrite flat_map_app, SamSrvProofs2.cnt_app in P. cbn [flat_map] in P. rewrite app_nil_r in P. lia.
Qed.

Lemma open_all_cnt k d l : forall s s' o, open_all d l s = (s', o) -> sorted (nkeys (x_out s)) ->
  sorted (nkeys (x_out s')) /\ cnt k (SamSrvSpec.total socks (x_out s')) = cnt k (SamSrvSpec.total socks (x_out s))
  /\ flat_map parted o = flat_map SamSessSpec.sock_of l.
Proof.
  induction l as [|[k0 o0|] l IH]; intros s s' o H Sd.
  - cbn in H. apply pair_equal_spec in H as [<- <-]. auto.
  - cbn [open_all create_stream] in H. destruct (open_all d l (w_xout s (push_stream d AwaitingSession (x_out s)))) as [s2 o'] eqn:E.
    apply pair_equal_spec in H as [<- <-]. apply IH in E as (A & B & C); [|cbn [w_xout x_out]; now apply nput_Sorted].
    split; auto. cbn [w_xout x_out] in B. rewrite push_cnt in B by auto. split; [rewrite B; cbn; lia|]. cbn [flat_map app parted SamSessSpec.sock_of]. now rewrite C.
  - cbn [open_all] in H. apply IH in H as (A & B & C); auto.
Qed.

Lemma parted_dgs d (f : N -> bytes -> xout) l : (forall x, parted (f d x) = []) -> flat_map parted (map (f d) l) = [].
Proof. intros H. induction l; cbn; auto. now rewrite H, IHl. Qed.
Lemma parted_say s l : flat_map parted (say s l) = []. Proof. unfold say. destruct (x_ctl s); reflexivity. Qed.
Lemma parted_forget d n : flat_map parted (repeat (Forget d) n) = []. Proof. induction n; auto. Qed.
Lemma parted_cant l : flat_map parted (map (fun p : N * N => CantReach (fst p)) l) = map fst l.
Proof. induction l; cbn; auto. now rewrite IHl. Qed.
Lemma parted_shut l : flat_map parted (map (fun p : N * N => XShut (fst p)) l) = map fst l.
Proof. induction l; cbn; auto. now rewrite IHl. Qed.

Lemma drop_parted d p : flat_map parted (drop_entry d p) = flat_map SamSessSpec.sock_of (p_streams p).
Proof.
  unfold drop_entry. rewrite shuts, flat_map_app, parted_shut, waits_socks.
  destruct (p_dgrams p); [rewrite (parted_dgs d Dropped) by reflexivity|]; cbn [flat_map]; now rewrite app_nil_r.
Qed.

Lemma step_socks did k s op s' o : sorted (nkeys (x_out s)) -> step did s op = Fine s' o ->
  sorted (nkeys (x_out s')) /\ (cnt k (waiting_socks s') + cnt k (flat_map parted o) = cnt k (waiting_socks s) + cnt k (brought op))%nat.
Proof.
  intros Sd H. rewrite !waiting_total.
  destruct op as [k0 d o0 st|k0|k0|d x st|name st value|d value|d|d ob|d|key v| |]; cbn [step brought] in *.
  - unfold on_connect, create_stream in H. destruct (negb (x_stream s)); [injection H as <- <-; split; auto; cbn; lia|].
    destruct (d =? x_me s); [injection H as <- <-; split; auto; cbn; lia|].
    destruct st; injection H as <- <-; cbn [w_xout x_out]; (split; [now apply nput_Sorted|]); rewrite push_cnt by auto;
      cbn [flat_map parted app SamSessSpec.sock_of]; unfold SamSrvProofs2.cnt; cbn [count_occ]; lia.
  - unfold on_listen in H. destruct (negb (x_stream s)); injection H as <- <-; split; auto; cbn [flat_map parted app]; lia.
  - unfold on_listen in H. destruct (negb (x_stream s)); injection H as <- <-; split; auto; cbn [flat_map parted app]; lia.
  - unfold on_send_datagram in H. destruct (x_stream s); [injection H as <- <-; split; auto|].
    destruct st; injection H as <- <-; [split; auto| |]; cbn [w_xout x_out]; (split; [now apply nput_Sorted|]);
      (set (e := match nget d (x_out s) with Some p => _ | None => _ end);
       pose proof (SamSrvProofs2.total_put socks k d e _ Sd) as P; rewrite old_socks in P; unfold socks in P at 3;
       assert (E : p_streams e = p_streams (entry d (x_out s))) by (unfold e, entry; destruct (nget d (x_out s)); reflexivity);
       rewrite E in P; cbn [flat_map]; unfold SamSrvProofs2.cnt in *; cbn [count_occ]; lia).
  - destruct (x_ctl s); [|injection H as <- <-; split; auto].
    assert (G : x_out s' = x_out s /\ flat_map parted o = []); [|destruct G as [-> ->]; split; auto].
    unfold on_naming_lookup in H. destruct (beq name (lit "ME")); [injection H as <- <-; now rewrite parted_say|].
    destruct (find_sub (lit ".b32.i2p") name) as [e|].
    + destruct (Nat.ltb e (scheme_len name)); [discriminate|]. destruct (base32_decode _); [|injection H as <- <-; now rewrite parted_say].
      destruct st; injection H as <- <-; rewrite ?parted_say; auto.
    + destruct (find_sub (lit ".i2p") name); [|injection H as <- <-; now rewrite parted_say].
      destruct (x_book s); injection H as <- <-; rewrite ?parted_say; auto.
  - unfold on_found in H.
    set (r := match nget d (x_out s) with None => _ | Some p => _ end) in H.
    assert (R : exists s1 o1, r = (s1, o1) /\ sorted (nkeys (x_out s1))
      /\ (cnt k (SamSrvSpec.total socks (x_out s1)) + cnt k (flat_map parted o1) = cnt k (SamSrvSpec.total socks (x_out s)))%nat).
    { subst r. destruct (nget d (x_out s)) as [p|] eqn:P; [|eexists _, _; split; [reflexivity|]; split; auto; cbn; lia].
      destruct (open_all d (p_streams p) _) as [s2 o2] eqn:E. eexists _, _; split; [reflexivity|].
      apply (open_all_cnt k) in E as (A & B & C); [|cbn [w_xout x_out]; now apply ndel_Sorted]. split; auto. cbn [w_xout x_out] in B. rewrite B.
      rewrite flat_map_app, C. pose proof (SamSrvProofs2.total_del socks k d _ Sd) as D. unfold SamSrvProofs2.old in D. rewrite P in D. unfold socks in D at 2.
      destruct (p_dgrams p); [rewrite (parted_dgs d SendTo) by reflexivity|]; cbn [flat_map]; rewrite app_nil_r; lia. }
    destruct R as (s1 & o1 & -> & A & B). destruct (nget d (x_names s1)); injection H as <- <-; cbn [w_xnames x_out]; (split; [exact A|]);
      rewrite ?flat_map_app, ?parted_say, ?app_nil_r; unfold SamSrvProofs2.cnt in *; cbn [count_occ]; lia.
  - unfold on_not_found in H.
    set (r := match nget d (x_out s) with None => _ | Some p => _ end) in H.
    assert (R : exists s1 o1, r = (s1, o1) /\ sorted (nkeys (x_out s1))
      /\ (cnt k (SamSrvSpec.total socks (x_out s1)) + cnt k (flat_map parted o1) = cnt k (SamSrvSpec.total socks (x_out s)))%nat).
    { subst r. destruct (nget d (x_out s)) as [p|] eqn:P; [|eexists _, _; split; [reflexivity|]; split; auto; cbn; lia].
      eexists _, _; split; [reflexivity|]. cbn [w_xout x_out]. split; [now apply ndel_Sorted|].
      rewrite forgets, cants, !flat_map_app, parted_forget, parted_cant, waits_socks.
      pose proof (SamSrvProofs2.total_del socks k d _ Sd) as D. unfold SamSrvProofs2.old in D. rewrite P in D. unfold socks in D at 2.
      destruct (p_dgrams p); [rewrite (parted_dgs d Dropped) by reflexivity|]; cbn [flat_map app]; lia. }
    destruct R as (s1 & o1 & -> & A & B). destruct (nget d (x_names s1)); injection H as <- <-; cbn [w_xnames x_out]; (split; [exact A|]);
      rewrite ?flat_map_app, ?parted_say, ?app_nil_r; unfold SamSrvProofs2.cnt in *; cbn [count_occ]; lia.
  - destruct ob; [|injection H as <- <-; split; auto].
    unfold on_removed in H. destruct (nget d (x_out s)) as [p|] eqn:P; injection H as <- <-; [|split; auto].
    cbn [w_xout x_out]. split; [now apply ndel_Sorted|]. rewrite drop_parted.
    pose proof (SamSrvProofs2.total_del socks k d _ Sd) as D. unfold SamSrvProofs2.old in D. rewrite P in D. unfold socks in D at 2.
    unfold SamSrvProofs2.cnt in *; cbn [count_occ]; lia.
  - unfold on_removed in H. destruct (nget d (x_out s)) as [p|] eqn:P; injection H as <- <-; [|split; auto].
    cbn [w_xout x_out]. split; [now apply ndel_Sorted|]. rewrite drop_parted.
    pose proof (SamSrvProofs2.total_del socks k d _ Sd) as D. unfold SamSrvProofs2.old in D. rewrite P in D. unfold socks in D at 2.
    unfold SamSrvProofs2.cnt in *; cbn [count_occ]; lia.
  - unfold on_answer in H. destruct (nget key (x_futs s)); injection H as <- <-; (split; [auto|]); rewrite ?parted_say; auto.
  - destruct (x_ctl s); injection H as <- <-; split; auto.
  - injection H as <- <-. cbn [x_out]. split; [constructor|]. cbn [SamSrvSpec.total].
    assert (E : flat_map parted (flat_map (fun e => drop_entry (fst e) (snd e)) (x_out s)) = SamSrvSpec.total socks (x_out s)).
    { clear. induction (x_out s) as [|[a b] t IH]; auto. cbn [flat_map SamSrvSpec.total fst snd]. rewrite flat_map_app, drop_parted, IH. reflexivity. }
    rewrite E. unfold SamSrvProofs2.cnt. cbn [count_occ]. lia.
Qed.

Lemma run_step did s op ops s' os : run did s (op :: ops) = Some (s', os) ->
  exists s1 o os', step did s op = Fine s1 o /\ run did s1 ops = Some (s', os') /\ os = o :: os'.
Proof.
  cbn [run]. destruct (step did s op) as [|s1 o]; [discriminate|]. destruct (run did s1 ops) as [[s2 os']|] eqn:R; [|discriminate].
  intros H. injection H as <- <-. eauto 7.
Qed.

Lemma run_socks did k ops : forall s s' os, sorted (nkeys (x_out s)) -> run did s ops = Some (s', os) ->
  sorted (nkeys (x_out s')) /\
  (cnt k (waiting_socks s') + cnt k (flat_map parted (concat os)) = cnt k (waiting_socks s) + cnt k (flat_map brought ops))%nat.
Proof.
  induction ops as [|op ops IH]; intros s s' os Sd R.
  - cbn in R. injection R as <- <-. split; auto.
  - apply run_step in R as (s1 & o & os' & S1 & R & ->). destruct (step_socks did k s op s1 o Sd S1) as [Sd1 C1].
    destruct (IH _ _ _ Sd1 R) as [Sd2 C2]. split; auto. cbn [flat_map concat]. rewrite flat_map_app, !SamSrvProofs2.cnt_app. lia.
Qed.

(** everything about one destination, along a run *)
Lemma run_facts did ops : forall s, exists s' os, run did s ops = Some (s', os) /\ same_but s s'
  /\ x_ctl s' = ctl_run (x_ctl s) ops
  /\ (x_futs s', x_next s') = futs_run (x_book s) did (x_ctl s) (x_futs s, x_next s) ops
  /\ (forall d, at_ s' d = wait_run (x_me s) (x_stream s) did d (x_ctl s) (at_ s d) ops).
Proof.
  induction ops as [|op ops IH]; intros s.
  - exists s, []. cbn. repeat split; auto.
  - destruct (step_facts did s op) as (s1 & o & S1 & (B1 & B2 & B3 & B4) & C & F & A & _).
    destruct (IH s1) as (s' & os & R & (D1 & D2 & D3 & D4) & C' & F' & A').
    exists s', (o :: os). cbn [run]. rewrite S1, R. split; [reflexivity|]. split; [unfold same_but; repeat split; congruence|].
    cbn [ctl_run futs_run wait_run]. rewrite <- C, <- F, <- B4. split; [congruence|]. split; [congruence|].
    intros d. rewrite A', A, B1, B3, C. reflexivity.
Qed.

(** ** Datagrams *)
Definition settled1 (d : N) (o : list xout) : list bytes :=
  flat_map (fun o => match o with SendTo d' x | Dropped d' x => if d' =? d then [x] else [] | _ => [] end) o.
Lemma settled_cons d o os : settled d (o :: os) = settled1 d o ++ settled d os.
Proof. unfold settled, settled1. cbn [concat]. apply flat_map_app. Qed.

Lemma settled1_app d a b : settled1 d (a ++ b) = settled1 d a ++ settled1 d b. Proof. apply flat_map_app. Qed.
Lemma settled1_map d d' (f : N -> bytes -> xout) l : (f = SendTo \/ f = Dropped) -> settled1 d (map (f d') l) = if d' =? d then l else [].
Proof.
  intros H. induction l as [|x l IH]; cbn [map].
  - cbn. destruct (d' =? d); auto.
  - unfold settled1 in *. cbn [flat_map]. rewrite IH. destruct H as [-> | ->]; destruct (d' =? d); reflexivity.
Qed.
Lemma settled1_none d (l : list xout) : (forall o, In o l -> match o with SendTo _ _ | Dropped _ _ => False | _ => True end) -> settled1 d l = [].
Proof. induction l as [|a l IH]; intros H; auto. cbn. fold (settled1 d l). rewrite IH by (intros; apply H; now right). specialize (H a (or_introl eq_refl)). destruct a; tauto. Qed.

Lemma end_settled d (m : nmap pend) : sorted (nkeys m) ->
  settled1 d (flat_map (fun e => drop_entry (fst e) (snd e)) m) = dgs (p_dgrams (entry d m)).
Proof.
  unfold sorted, entry. induction m as [|[a b] t IH]; intros Sd; auto. cbn [nkeys map fst] in Sd. inversion Sd as [|? ? Sd' Fa]; subst.
  cbn [flat_map fst snd nget]. rewrite settled1_app, (IH Sd'). unfold drop_entry. rewrite settled1_app, shuts, dgs_map.
  rewrite (settled1_none d (map _ _)) by (intros o Ho; apply in_map_iff in Ho as (p & <- & _); auto).
  rewrite settled1_map by auto. cbn [app]. destruct (N.eqb_spec d a) as [->|Hne].
  - assert (nget a t = None) as ->; [|rewrite N.eqb_refl; cbn; apply app_nil_r].
    apply nget_None_nkeys. intros X. rewrite Forall_forall in Fa. apply Fa in X. lia.
  - destruct (N.eqb_spec a d); [congruence|]. reflexivity.
Qed.

(** one operation, under the promise *)
Definition offered1 (d : N) (op : xop) : list bytes := match op with XDatagram d' x _ => if d' =? d then [x] else [] | _ => [] end.
Definition busy_step (d : N) (busy : bool) (op : xop) : bool :=
  match op with
  | XDatagram d' _ st => if d' =? d then match st with Found => busy | _ => true end else busy
  | XFound d' _ | XNotFound d' => busy && negb (d' =? d)
  | XEnd => false
  | _ => busy
  end.
Definition fair (d : N) (busy : bool) (op : xop) : bool :=
  match op with XDatagram d' _ Found => negb ((d' =? d) && busy) | _ => true end.

Lemma orderly_cons d busy op ops : orderly d busy (op :: ops) = true -> fair d busy op = true /\ orderly d (busy_step d busy op) ops = true.
Proof.
  destruct op as [k d' o st|k|k|d' x st|name st value|d' value|d'|d' ob|d'|key v| |]; cbn [orderly fair busy_step]; auto.
  destruct (d' =? d); destruct st; auto; cbn [andb negb]; destruct busy; cbn; auto; discriminate.
Qed.

Lemma step_settled did s d busy op s' o : sorted (nkeys (x_out s)) -> step did s op = Fine s' o -> fair d busy op = true ->
  (busy = false \/ x_stream s = true -> wd (at_ s d) = []) ->
  settled1 d o ++ wd (at_ s' d) = wd (at_ s d) ++ offered1 d op
  /\ (busy_step d busy op = false \/ x_stream s = true -> wd (at_ s' d) = []).
Proof.
  intros Sd S1 F B. destruct (step_facts did s op) as (s2 & o2 & S2 & _ & _ & _ & A & O). rewrite S1 in S2. injection S2 as <- <-. rewrite A.
  assert (Stay : settled1 d o = [] -> wd (wait_step (x_me s) (x_stream s) did d (x_ctl s) (at_ s d) op) = wd (at_ s d) -> offered1 d op = [] ->
    busy_step d busy op = busy ->
    settled1 d o ++ wd (wait_step (x_me s) (x_stream s) did d (x_ctl s) (at_ s d) op) = wd (at_ s d) ++ offered1 d op
    /\ (busy_step d busy op = false \/ x_stream s = true -> wd (wait_step (x_me s) (x_stream s) did d (x_ctl s) (at_ s d) op) = [])).
  { intros -> -> -> ->. rewrite app_nil_r. auto. }
  assert (Sy : forall c l, settled1 d (tell c l) = []) by (intros []; reflexivity).
  assert (Nm : forall (x : option bytes) f, settled1 d (match x with Some n => tell (x_ctl s) (f n) | None => [] end) = []) by (intros [x|] f; auto).
  assert (Sh : forall l, settled1 d (map (fun p : N * N => XShut (fst p)) l) = [])
    by (intros l; apply settled1_none; intros q Hq; apply in_map_iff in Hq as (p & <- & _); auto).
  destruct op as [k d' o0 st|k|k|d' x st|name st value|d' value|d'|d' ob|d'|key v| |]; try (specialize (O eq_refl)); cbn [expect] in O.
  - apply Stay; auto.
    + subst o. destruct (negb (x_stream s)); auto. destruct (d' =? x_me s); auto. destruct st; auto.
    + cbn [wait_step]. destruct (_ && _); auto. destruct st; auto.
  - apply Stay; auto. subst o. destruct (x_stream s); auto.
  - apply Stay; auto. subst o. destruct (x_stream s); auto.
  - subst o. cbn [wait_step offered1 busy_step fair] in *. destruct (x_stream s) eqn:St; cbn [negb andb].
    + rewrite B by auto. cbn [settled1 flat_map]. destruct (d' =? d); auto.
    + destruct (N.eqb_spec d' d) as [->|]; cbn [app].
      * destruct st; cbn [andb negb wd] in *; rewrite ?N.eqb_refl.
        -- destruct busy; [discriminate|]. rewrite B by auto. cbn [settled1 flat_map]. rewrite N.eqb_refl. auto.
        -- split; auto. intros [|]; discriminate.
        -- split; auto. intros [|]; discriminate.
      * rewrite app_nil_r. split; auto. destruct st; auto. cbn [settled1 flat_map]. destruct (N.eqb_spec d' d); [congruence|auto].
  - apply Stay; auto.
    + subst o. destruct (negb (x_ctl s)); auto. destruct (kind_of did name); auto; [destruct st; auto|destruct (x_book s); auto].
    + cbn [wait_step]. destruct (kind_of did name); auto. destruct st; auto; destruct (_ && _); auto.
  - subst o. rewrite !settled1_app, Nm, app_nil_r, settled1_map by auto.
    rewrite (settled1_none d (map _ _)) by (intros q Hq; apply in_map_iff in Hq as (p & <- & _); auto). cbn [app wait_step offered1 busy_step].
    rewrite app_nil_r. destruct (N.eqb_spec d' d) as [->|]; cbn [wd].
    + rewrite app_nil_r. auto.
    + rewrite andb_true_r. auto.
  - subst o. rewrite !settled1_app, Nm, app_nil_r, settled1_map by auto.
    rewrite (settled1_none d (repeat _ _)) by (intros q Hq; apply repeat_spec in Hq as ->; auto).
    rewrite (settled1_none d (map _ _)) by (intros q Hq; apply in_map_iff in Hq as (p & <- & _); auto). cbn [app wait_step offered1 busy_step].
    rewrite !app_nil_r. destruct (N.eqb_spec d' d) as [->|]; cbn [wd no_wait].
    + rewrite app_nil_r. auto.
    + rewrite andb_true_r. auto.
  - destruct ob; [|apply Stay; auto; subst o; auto]. subst o. rewrite settled1_app, Sh, settled1_map by auto. cbn [app wait_step offered1 busy_step].
    rewrite app_nil_r. destruct (N.eqb_spec d' d) as [->|]; cbn [wd]; [rewrite app_nil_r|]; auto.
  - subst o. rewrite settled1_app, Sh, settled1_map by auto. cbn [app wait_step offered1 busy_step].
    rewrite app_nil_r. destruct (N.eqb_spec d' d) as [->|]; cbn [wd]; [rewrite app_nil_r|]; auto.
  - apply Stay; auto. subst o. destruct (nget key (x_futs s)); auto.
  - apply Stay; auto. subst o. destruct (x_ctl s); auto.
  - cbn [step] in S1. injection S1 as <- <-. rewrite end_settled by auto. cbn [wait_step offered1 busy_step no_wait wd]. rewrite !app_nil_r. auto.
Qed.

Lemma run_settled did d ops : forall s s' os busy, sorted (nkeys (x_out s)) -> run did s ops = Some (s', os) -> orderly d busy ops = true ->
  (busy = false \/ x_stream s = true -> wd (at_ s d) = []) ->
  settled d os ++ wd (at_ s' d) = wd (at_ s d) ++ offered d ops.
Proof.
  induction ops as [|op ops IH]; intros s s' os busy Sd R Or B.
  - cbn in R. injection R as <- <-. cbn. now rewrite app_nil_r.
  - apply run_step in R as (s1 & o & os' & S1 & R & ->). apply orderly_cons in Or as [F Or].
    destruct (step_settled did s d busy op s1 o Sd S1 F B) as [C1 B1]. destruct (step_socks did 0 s op s1 o Sd S1) as [Sd1 _].
    assert (St : x_stream s1 = x_stream s).
    { destruct (step_facts did s op) as (s2 & o2 & S2 & Sb & _). rewrite S1 in S2. injection S2 as <- <-. unfold same_but in Sb. intuition congruence. }
    rewrite <- St in B1. pose proof (IH s1 s' os' _ Sd1 R Or B1) as C2.
    rewrite settled_cons, <- app_assoc, C2, app_assoc, C1. unfold offered. cbn [flat_map]. fold (offered1 d op). now rewrite app_assoc.
Qed.

(** nothing is dropped *)
Definition dropped1 (d : N) (o : list xout) : list bytes :=
  flat_map (fun o => match o with Dropped d' x => if d' =? d then [x] else [] | _ => [] end) o.
Lemma dropped1_app d a b : dropped1 d (a ++ b) = dropped1 d a ++ dropped1 d b. Proof. apply flat_map_app. Qed.
Lemma dropped1_none d (l : list xout) : (forall o, In o l -> match o with Dropped d' _ => d' <> d | _ => True end) -> dropped1 d l = [].
Proof.
  induction l as [|a l IH]; intros H; auto. cbn. fold (dropped1 d l). rewrite IH by (intros; apply H; now right).
  specialize (H a (or_introl eq_refl)). destruct a; auto. destruct (N.eqb_spec dest d); tauto.
Qed.
Lemma step_dropped did s d op s' o : step did s op = Fine s' o -> x_stream s = false -> gives_up d op = false -> dropped1 d o = [].
Proof.
  intros S1 St G. destruct (step_facts did s op) as (s2 & o2 & S2 & _ & _ & _ & _ & O). rewrite S1 in S2. injection S2 as <- <-.
  assert (Sy : forall c l, dropped1 d (tell c l) = []) by (intros []; reflexivity).
  assert (Nm : forall (x : option bytes) f, dropped1 d (match x with Some n => tell (x_ctl s) (f n) | None => [] end) = []) by (intros [x|] f; auto).
  assert (Dr : forall d' l, d' <> d -> dropped1 d (map (Dropped d') l) = [])
    by (intros d' l Hd; apply dropped1_none; intros q Hq; apply in_map_iff in Hq as (p & <- & _); auto).
  assert (Mp : forall A (f : A -> xout) l, (forall a, match f a with Dropped _ _ => False | _ => True end) -> dropped1 d (map f l) = []).
  { intros A f l Hf. apply dropped1_none. intros q Hq. apply in_map_iff in Hq as (p & <- & _). specialize (Hf p). destruct (f p); tauto. }
  rewrite St in O.
  destruct op as [k d' o0 st|k|k|d' x st|name st value|d' value|d'|d' ob|d'|key v| |]; try (specialize (O eq_refl)); cbn [expect gives_up negb] in *; try discriminate G.
  - subst o. reflexivity.
  - subst o. reflexivity.
  - subst o. reflexivity.
  - subst o. destruct st; reflexivity.
  - subst o. destruct (negb (x_ctl s)); auto. destruct (kind_of did name); auto; [destruct st; auto|destruct (x_book s); auto].
  - subst o. rewrite !dropped1_app, Nm, !Mp by (intros; exact I). reflexivity.
  - apply N.eqb_neq in G. subst o. rewrite !dropped1_app, Nm, Dr, !Mp by (auto; intros; exact I).
    rewrite dropped1_none by (intros q Hq; apply repeat_spec in Hq as ->; auto). reflexivity.
  - destruct ob; [|subst o; reflexivity]. apply N.eqb_neq in G. subst o. rewrite dropped1_app, Dr, Mp by (auto; intros; exact I). reflexivity.
  - apply N.eqb_neq in G. subst o. rewrite dropped1_app, Dr, Mp by (auto; intros; exact I). reflexivity.
  - subst o. destruct (nget key (x_futs s)); auto.
  - subst o. destruct (x_ctl s); auto.
Qed.

Lemma run_sent did d ops : forall s s' os, run did s ops = Some (s', os) -> x_stream s = false -> existsb (gives_up d) ops = false ->
  sent d os = settled d os.
Proof.
  induction ops as [|op ops IH]; intros s s' os R St G.
  - cbn in R. injection R as <- <-. reflexivity.
  - apply run_step in R as (s1 & o & os' & S1 & R & ->). cbn [existsb] in G. apply orb_false_iff in G as [G1 G2].
    assert (St1 : x_stream s1 = false).
    { destruct (step_facts did s op) as (s2 & o2 & S2 & Sb & _). rewrite S1 in S2. injection S2 as <- <-. unfold same_but in Sb. intuition congruence. }
    pose proof (IH _ _ _ R St1 G2) as C. pose proof (step_dropped did s d op s1 o S1 St G1) as D.
    rewrite settled_cons. unfold sent in *. cbn [concat]. rewrite flat_map_app, C. f_equal. clear - D.
    unfold settled1, dropped1 in *. induction o as [|a o IH]; auto. cbn [flat_map] in *. apply app_eq_nil in D as [D1 D2]. rewrite (IH D2).
    destruct a; auto. rewrite D1. reflexivity.
Qed.
