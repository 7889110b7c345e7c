(** Proofs about the SAMv3 session. *)
From Coq Require Import Ascii String.
From Coq Require Import List NArith PeanoNat Bool Lia.
From Verif Require Import ListUtil Bytes NMap EncModel PrimModel I2cpModel SamModel RouteProofs DestProofs DestModel SamSessModel SamSessSpec.
Import ListNotations.
Local Open Scope list_scope.
Open Scope N_scope.

Lemma starts_split p l : starts_with p l = true -> exists r, l = p ++ r.
Proof.
  revert l. induction p as [|a p IH]; intros l H; [exists l; reflexivity|]. destruct l as [|b l]; [discriminate|].
  cbn [starts_with] in H. apply andb_true_iff in H as [E H]. apply N.eqb_eq in E. subst b. apply IH in H as [r ->]. exists r. reflexivity.
Qed.

Lemma find_sub_skip c p s r : ~ In c s -> find_sub (c :: p) (s ++ r) = option_map (plus (length s)) (find_sub (c :: p) r).
Proof.
  induction s as [|a s IH]; intros H; [cbn [app length plus]; now destruct (find_sub (c :: p) r)|].
  change ((a :: s) ++ r) with (a :: (s ++ r)). cbn [find_sub starts_with].
  destruct (N.eqb_spec c a) as [->|]; [exfalso; apply H; now left|]. cbn [andb].
  rewrite IH by (intros X; apply H; now right). destruct (find_sub (c :: p) r); reflexivity.
Qed.

Lemma b32_after_scheme name e : find_sub (lit ".b32.i2p") name = Some e -> (scheme_len name <= e)%nat.
Proof.
  intros H. unfold scheme_len.
  assert (K : forall s, starts_with s name = true -> ~ In 46 s -> (length s <= e)%nat).
  { intros s S1 N1. apply starts_split in S1 as [r ->]. change (lit ".b32.i2p") with (46 :: lit "b32.i2p") in H.
    rewrite find_sub_skip in H by exact N1. destruct (find_sub _ r); [|discriminate H]. injection H as <-. lia. }
  destruct (starts_with (lit "http://") name) eqn:S1.
  - apply (K _ S1). cbn. intuition discriminate.
  - destruct (starts_with (lit "https://") name) eqn:S2; [|lia]. apply (K _ S2). cbn. intuition discriminate.
Qed.

(** ** What the state says of one destination *)
Definition waits (l : list pstate) : list (N * N) := flat_map (fun p => match p with AwaitingLeaseSet k o => [(k, o)] | AwaitingSession => [] end) l.
Definition awaits (l : list pstate) : nat := length (filter (fun p => match p with AwaitingSession => true | _ => false end) l).
Definition dgs (o : option (list bytes)) : list bytes := match o with Some l => l | None => [] end.
Definition at_ (s : sess) (d : N) : wait :=
  mkWait (waits (p_streams (entry d (x_out s)))) (awaits (p_streams (entry d (x_out s)))) (dgs (p_dgrams (entry d (x_out s)))) (nget d (x_names s)).

Lemma entry_put d e m k : entry k (nput d e m) = if k =? d then e else entry k m.
Proof. unfold entry. rewrite nget_nput. destruct (k =? d); reflexivity. Qed.
Lemma entry_del d (m : nmap pend) k : entry k (ndel d m) = if k =? d then pend_new else entry k m.
Proof. unfold entry. rewrite nget_ndel. destruct (k =? d); reflexivity. Qed.

Lemma waits_app a b : waits (a ++ b) = waits a ++ waits b. Proof. apply flat_map_app. Qed.
Lemma awaits_app a b : awaits (a ++ b) = (awaits a + awaits b)%nat.
Proof. unfold awaits. now rewrite filter_app, app_length. Qed.

Definition same_but (s s' : sess) : Prop :=
  x_me s' = x_me s /\ x_dest s' = x_dest s /\ x_stream s' = x_stream s /\ x_book s' = x_book s.

Lemma open_all_spec d l : forall s s' o, open_all d l s = (s', o) ->
  o = map (fun p => Open (fst p) d (snd p)) (waits l) /\ same_but s s' /\ x_ctl s' = x_ctl s /\ x_names s' = x_names s
  /\ x_futs s' = x_futs s /\ x_next s' = x_next s
  /\ forall k, entry k (x_out s') = if k =? d then mkPend (p_streams (entry d (x_out s)) ++ repeat AwaitingSession (length (waits l))) (p_dgrams (entry d (x_out s)))
                                    else entry k (x_out s).
Proof.
  induction l as [|[k0 o0|] l IH]; intros s s' o H.
  - cbn in H. apply pair_equal_spec in H as [<- <-]. cbn. repeat split; auto. intros k. rewrite app_nil_r.
    destruct (N.eqb_spec k d) as [->|]; auto. now destruct (entry d (x_out s)).
  - cbn [open_all create_stream] in H. destruct (open_all d l (w_xout s (push_stream d AwaitingSession (x_out s)))) as [s2 o'] eqn:E.
    apply pair_equal_spec in H as [<- <-]. apply IH in E as (-> & Sb & E1 & E2 & E3 & E4 & E5). cbn [waits flat_map app map fst snd length repeat].
    fold (waits l). split; [reflexivity|]. split; [exact Sb|]. do 4 (split; [assumption|]).
    intros k. rewrite E5. cbn [w_xout x_out]. unfold push_stream. rewrite !entry_put, N.eqb_refl. cbn [p_streams p_dgrams].
    destruct (N.eqb_spec k d); [|reflexivity]. rewrite <- app_assoc. reflexivity.
  - cbn [open_all] in H. apply IH in H. exact H.
Qed.

Lemma waits_await n : waits (repeat AwaitingSession n) = []. Proof. induction n; auto. Qed.
Lemma awaits_await n : awaits (repeat AwaitingSession n) = n. Proof. induction n as [|n IH]; [reflexivity|]. unfold awaits in *. cbn. now rewrite IH. Qed.

Lemma forgets d l : flat_map (fun q => match q with AwaitingSession => [Forget d] | AwaitingLeaseSet _ _ => [] end) l = repeat (Forget d) (awaits l).
Proof. induction l as [|[]]; auto. cbn. now rewrite IHl. Qed.
Lemma cants l : flat_map (fun q => match q with AwaitingSession => [] | AwaitingLeaseSet k _ => [CantReach k] end) l = map (fun p => CantReach (fst p)) (waits l).
Proof. induction l as [|[]]; auto. cbn. now rewrite IHl. Qed.
Lemma shuts l : flat_map (fun q => match q with AwaitingSession => [] | AwaitingLeaseSet k _ => [XShut k] end) l = map (fun p => XShut (fst p)) (waits l).
Proof. induction l as [|[]]; auto. cbn. now rewrite IHl. Qed.
Lemma dgs_map {B} (f : bytes -> B) o : match o with Some l => map f l | None => [] end = map f (dgs o).
Proof. destruct o; reflexivity. Qed.

Section Proofs.
Variable did : bytes -> N.

Definition ends (op : xop) : bool := match op with XEnd => true | _ => false end.

Ltac wsplit := repeat match goal with |- _ /\ _ => split end.

Lemma step_facts s op : exists s' o, step did s op = Fine s' o
  /\ same_but s s' /\ x_ctl s' = ctl_step (x_ctl s) op
  /\ (x_futs s', x_next s') = futs_step (x_book s) did (x_ctl s) (x_futs s, x_next s) op
  /\ (forall d, at_ s' d = wait_step (x_me s) (x_stream s) did d (x_ctl s) (at_ s d) op)
  /\ (ends op = false -> o = expect (x_me s) (x_dest s) (x_stream s) (x_book s) did (x_ctl s) (x_futs s) (x_next s) (at_ s) op).
Proof.
  destruct op as [k d o st|k|k|d x st|name st value|d value|d|d ob|d|key v| |]; cbn [step].
  - (* connect *) unfold on_connect, create_stream. cbn [wait_step expect ctl_step futs_step]. destruct (x_stream s) eqn:St; cbn [negb andb].
    2: { eexists _, _; split; [reflexivity|]. wsplit; auto. repeat split; auto. }
    destruct (N.eqb_spec d (x_me s)) as [->|Hne].
    { eexists _, _; split; [reflexivity|]. wsplit; auto; [repeat split; auto|].
      intros d. rewrite (N.eqb_sym (x_me s) d). destruct (N.eqb_spec d (x_me s)); reflexivity. }
    destruct st; (eexists _, _; split; [reflexivity|]); wsplit; auto; try (repeat split; auto; fail);
      intros d'; unfold at_, push_stream; cbn [w_xout x_out x_names]; rewrite entry_put, (N.eqb_sym d d'); destruct (N.eqb_spec d' d) as [->|]; cbn [andb];
      try reflexivity; (destruct (N.eqb_spec d (x_me s)); [contradiction|]); cbn [negb p_streams p_dgrams];
      rewrite waits_app, awaits_app; cbn; rewrite ?app_nil_r; f_equal; lia.
  - unfold on_listen. cbn [wait_step expect ctl_step futs_step]. destruct (x_stream s); cbn [negb]; (eexists _, _; split; [reflexivity|]); wsplit; auto; repeat split; auto.
  - unfold on_listen. cbn [wait_step expect ctl_step futs_step]. destruct (x_stream s); cbn [negb]; (eexists _, _; split; [reflexivity|]); wsplit; auto; repeat split; auto.
  - (* datagram *) unfold on_send_datagram. cbn [wait_step expect ctl_step futs_step]. destruct (x_stream s) eqn:St; cbn [negb andb].
    { eexists _, _; split; [reflexivity|]. wsplit; auto. repeat split; auto. }
    destruct st; (eexists _, _; split; [reflexivity|]); wsplit; auto; try (repeat split; auto; fail).
    { intros d'. destruct (d =? d'); reflexivity. }
    all: intros d'; unfold at_; cbn [w_xout x_out x_names]; rewrite entry_put, (N.eqb_sym d d'); destruct (N.eqb_spec d' d) as [->|]; try reflexivity;
      unfold entry; destruct (nget d (x_out s)) as [[ps [l|]]|]; reflexivity.
  - (* name *)
    cbn [wait_step expect ctl_step futs_step fst snd]. destruct (x_ctl s) eqn:C.
    2: { eexists _, _; split; [reflexivity|]. cbn [negb andb]. wsplit; auto; [repeat split; auto| |]; intros; destruct (kind_of did name), st; reflexivity. }
    unfold on_naming_lookup, kind_of, say. rewrite C. cbn [negb andb]. destruct (beq name (lit "ME")).
    { eexists _, _; split; [reflexivity|]. wsplit; auto. repeat split; auto. }
    destruct (find_sub (lit ".b32.i2p") name) as [e|] eqn:F.
    + pose proof (b32_after_scheme _ _ F) as L. destruct (Nat.ltb_spec e (scheme_len name)); [lia|].
      destruct (base32_decode (slice (scheme_len name) e name)) as [id|].
      * destruct st; (eexists _, _; split; [reflexivity|]); wsplit; auto; try (repeat split; auto; fail);
          intros d'; unfold at_; cbn [w_xnames x_out x_names]; rewrite nget_nput, (N.eqb_sym (did id) d'); destruct (d' =? did id); reflexivity.
      * eexists _, _; split; [reflexivity|]. wsplit; auto. repeat split; auto.
    + destruct (find_sub (lit ".i2p") name).
      * destruct (x_book s) eqn:B; (eexists _, _; split; [reflexivity|]); wsplit; auto; repeat split; auto.
      * eexists _, _; split; [reflexivity|]. wsplit; auto. repeat split; auto.
  - (* found *)
    unfold on_found. cbn [wait_step expect ctl_step futs_step].
    assert (G : forall s1 o1, x_names s1 = x_names s -> x_ctl s1 = x_ctl s -> same_but s s1 -> x_futs s1 = x_futs s -> x_next s1 = x_next s ->
      o1 = map (fun p => Open (fst p) d (snd p)) (ws (at_ s d)) ++ map (SendTo d) (wd (at_ s d)) ->
      (forall k, entry k (x_out s1) = if k =? d then mkPend (repeat AwaitingSession (length (ws (at_ s d)))) None else entry k (x_out s)) ->
      exists s' o, lift (match nget d (x_names s1) with Some name => (w_xnames s1 (ndel d (x_names s1)), o1 ++ say s1 (reply_ok name value)) | None => (s1, o1) end) = Fine s' o
        /\ same_but s s' /\ x_ctl s' = x_ctl s /\ (x_futs s', x_next s') = (x_futs s, x_next s)
        /\ (forall d0, at_ s' d0 = if d =? d0 then mkWait [] (length (ws (at_ s d0))) [] None else at_ s d0)
        /\ (false = false -> o = map (fun p => Open (fst p) d (snd p)) (ws (at_ s d)) ++ map (SendTo d) (wd (at_ s d)) ++
             match wname (at_ s d) with Some n => tell (x_ctl s) (reply_ok n value) | None => [] end)).
    { intros s1 o1 E1 E2 Sb E3 E4 -> E5. rewrite E1. unfold say. rewrite E2.
      assert (W : forall d0 (nm : nmap bytes), nget d nm = None -> (forall k, k <> d -> nget k nm = nget k (x_names s)) ->
         mkWait (waits (p_streams (entry d0 (x_out s1)))) (awaits (p_streams (entry d0 (x_out s1)))) (dgs (p_dgrams (entry d0 (x_out s1)))) (nget d0 nm)
         = if d =? d0 then mkWait [] (length (ws (at_ s d0))) [] None else at_ s d0).
      { intros d0 nm Hn Hk. rewrite E5, (N.eqb_sym d d0). destruct (N.eqb_spec d0 d) as [->|Hne].
        - cbn [p_streams p_dgrams dgs]. rewrite waits_await, awaits_await, Hn. reflexivity.
        - rewrite (Hk _ Hne). reflexivity. }
      destruct (nget d (x_names s)) as [n|] eqn:Nm; (eexists _, _; split; [reflexivity|]); wsplit; auto.
      - cbn [w_xnames x_futs x_next]. congruence.
      - intros d0. unfold at_ at 1. cbn [w_xnames x_out x_names]. apply W; [apply nget_ndel_same|]. intros k Hk. now apply nget_ndel_other.
      - intros _. rewrite <- app_assoc. cbn [at_ wname]. rewrite Nm. reflexivity.
      - congruence.
      - intros d0. unfold at_ at 1. apply W; rewrite E1; auto.
      - intros _. cbn [at_ wname]. rewrite Nm, app_nil_r. reflexivity. }
    destruct (nget d (x_out s)) as [p|] eqn:P.
    + destruct (open_all d (p_streams p) (w_xout s (ndel d (x_out s)))) as [s' o] eqn:OA.
      apply open_all_spec in OA as (-> & Sb & E1 & E2 & E3 & E4 & E5). cbn [w_xout x_out x_ctl x_names x_futs x_next] in *.
      apply G; auto.
      * cbn [at_ ws wd]. unfold entry. rewrite P, dgs_map. reflexivity.
      * intros k. rewrite E5. rewrite !entry_del, N.eqb_refl. cbn [at_ ws]. assert (Ed : entry d (x_out s) = p) by (unfold entry; now rewrite P). rewrite Ed.
        destruct (k =? d); reflexivity.
    + apply G; auto; try (repeat split; auto; fail).
      * cbn [at_ ws wd]. unfold entry. rewrite P. reflexivity.
      * intros k. cbn [at_ ws]. unfold entry. destruct (N.eqb_spec k d) as [->|]; auto. rewrite P. reflexivity.
  - (* not found *)
    unfold on_not_found. cbn [wait_step expect ctl_step futs_step].
    set (r := match nget d (x_out s) with None => _ | Some p => _ end).
    assert (R : exists s1, r = (s1, map (Dropped d) (wd (at_ s d)) ++ repeat (Forget d) (tries (at_ s d)) ++ map (fun p => CantReach (fst p)) (ws (at_ s d)))
      /\ x_names s1 = x_names s /\ x_ctl s1 = x_ctl s /\ same_but s s1 /\ x_futs s1 = x_futs s /\ x_next s1 = x_next s
      /\ forall k, entry k (x_out s1) = if k =? d then pend_new else entry k (x_out s)).
    { subst r. cbn [at_ ws wd tries]. unfold entry. destruct (nget d (x_out s)) as [p|] eqn:P.
      - rewrite forgets, cants, dgs_map. eexists; split; [reflexivity|]. wsplit; auto; [repeat split; auto|].
        intros k. cbn [w_xout x_out]. rewrite nget_ndel. destruct (k =? d); reflexivity.
      - eexists; split; [reflexivity|]. wsplit; auto; [repeat split; auto|]. intros k. destruct (N.eqb_spec k d) as [->|]; auto. now rewrite P. }
    destruct R as (s1 & -> & E1 & E2 & Sb & E3 & E4 & E5). rewrite E1. unfold say. rewrite E2.
    destruct (nget d (x_names s)) as [n|] eqn:Nm; (eexists _, _; split; [reflexivity|]); wsplit; auto.
    + cbn [w_xnames x_futs x_next]. congruence.
    + intros d0. unfold at_ at 1. cbn [w_xnames x_out x_names]. rewrite E5, nget_ndel, (N.eqb_sym d d0). destruct (N.eqb_spec d0 d) as [->|]; reflexivity.
    + intros _. rewrite <- !app_assoc. cbn [at_ wname]. rewrite Nm. reflexivity.
    + congruence.
    + intros d0. unfold at_ at 1. rewrite E5, E1, (N.eqb_sym d d0). destruct (N.eqb_spec d0 d) as [->|]; [rewrite Nm|]; reflexivity.
    + intros _. cbn [at_ wname]. rewrite Nm, app_nil_r. reflexivity.
  - (* opened *)
    destruct ob; cbn [wait_step expect ctl_step futs_step].
    2: { eexists _, _; split; [reflexivity|]. wsplit; auto. repeat split; auto. }
    unfold on_removed, drop_entry. cbn [at_ ws wd wname]. unfold entry. destruct (nget d (x_out s)) as [p|] eqn:P; (eexists _, _; split; [reflexivity|]); wsplit; auto; try (repeat split; auto; fail).
    + intros d0. unfold at_. cbn [w_xout x_out x_names]. rewrite entry_del, (N.eqb_sym d d0). destruct (N.eqb_spec d0 d) as [->|]; reflexivity.
    + intros _. rewrite shuts, dgs_map. reflexivity.
    + intros d0. unfold at_, entry. destruct (N.eqb_spec d d0) as [<-|]; [rewrite P|]; reflexivity.
  - (* rejected *)
    cbn [wait_step expect ctl_step futs_step].
    unfold on_removed, drop_entry. cbn [at_ ws wd wname]. unfold entry. destruct (nget d (x_out s)) as [p|] eqn:P; (eexists _, _; split; [reflexivity|]); wsplit; auto; try (repeat split; auto; fail).
    + intros d0. unfold at_. cbn [w_xout x_out x_names]. rewrite entry_del, (N.eqb_sym d d0). destruct (N.eqb_spec d0 d) as [->|]; reflexivity.
    + intros _. rewrite shuts, dgs_map. reflexivity.
    + intros d0. unfold at_, entry. destruct (N.eqb_spec d d0) as [<-|]; [rewrite P|]; reflexivity.
  - (* answer *)
    unfold on_answer, say. cbn [wait_step expect ctl_step futs_step fst snd].
    destruct (nget key (x_futs s)) as [n|] eqn:K; (eexists _, _; split; [reflexivity|]); wsplit; auto; try (repeat split; auto; fail).
    f_equal. clear - K. induction (x_futs s) as [|[a b] t IH]; auto. cbn in *. destruct (key =? a); [discriminate|]. now rewrite <- IH.
  - (* closed *)
    cbn [wait_step expect ctl_step futs_step]. destruct (x_ctl s) eqn:C; (eexists _, _; split; [reflexivity|]); wsplit; auto; repeat split; auto.
  - (* end *)
    cbn [wait_step expect ctl_step futs_step]. eexists _, _; split; [reflexivity|]. wsplit; auto; try discriminate. repeat split; auto.
Qed.
End Proofs.
