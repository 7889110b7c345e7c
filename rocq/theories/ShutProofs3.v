(** Proofs about what the user is told. *)
From Coq Require Import List NArith Bool Arith Lia.
From Verif Require Import ShutModel ShutSpec ShutProofs.
Import ListNotations.
Open Scope nat_scope.

Section Subseq.
Context {A : Type}.
Implicit Types a b c : list A.

Lemma subseq_refl : forall a, subseq a a.
Proof. induction a; [constructor|apply sub_keep; auto]. Qed.

Lemma subseq_app : forall a b c d, subseq a b -> subseq c d -> subseq (a ++ c) (b ++ d).
Proof.
  intros a b c d H. induction H as [b|x a b H IH|x a b H IH]; intros G; cbn [app].
  - induction b as [|y b IH]; [exact G|]. cbn [app]. apply sub_skip, IH.
  - apply sub_skip, IH, G.
  - apply sub_keep, IH, G.
Qed.

Lemma subseq_app_l : forall a b c, subseq a c -> subseq a (c ++ b).
Proof. intros. rewrite <- (app_nil_r a). apply subseq_app; [auto|constructor]. Qed.

Lemma subseq_drop : forall a b c d, subseq (a ++ b ++ c) d -> subseq (a ++ c) d.
Proof.
  intros a b c d H. remember (a ++ b ++ c) as l eqn:E. revert a b c E.
  induction H as [d|x l d H IH|x l d H IH]; intros a b c E.
  - destruct a; [destruct b; [destruct c; [constructor|discriminate]|discriminate]|discriminate].
  - apply sub_skip. eapply IH. exact E.
  - destruct a as [|y a].
    + destruct b as [|y b].
      * cbn [app] in E. destruct c as [|y c]; [discriminate|]. injection E as -> ->.
        cbn [app]. apply sub_keep. exact H.
      * injection E as -> ->. apply sub_skip. apply (IH [] b c). reflexivity.
    + injection E as -> ->. cbn [app]. apply sub_keep. eapply IH. reflexivity.
Qed.

Lemma subseq_prefix : forall a b c, subseq (a ++ b) c -> subseq a c.
Proof.
  intros a b c H. rewrite <- (app_nil_r a). apply (subseq_drop a b). rewrite app_nil_r. exact H.
Qed.

Lemma subseq_in : forall a b x, subseq a b -> In x a -> In x b.
Proof.
  intros a b x H. induction H; intros I; [destruct I|right; auto|].
  destruct I as [<-|I]; [left; reflexivity|right; auto].
Qed.
End Subseq.

Section Ev.
Context {name : Type}.
Implicit Types (e : em name) (tr : etrace name).

Lemma erun_app : forall (a b : list (eop name)) e,
  erun e (a ++ b) =
  let (e1, t1) := erun e a in let (e2, t2) := erun e1 b in (e2, t1 ++ t2).
Proof.
  induction a as [|o a IH]; intros b e; cbn [erun app].
  - destruct (erun e b); reflexivity.
  - destruct (estep e o) as [e1 r]. rewrite IH.
    destruct (erun e1 a) as [e2 t1]. destruct (erun e2 b); reflexivity.
Qed.

Definition rx_clients (q : list (started name)) : list name :=
  flat_map (fun x => match x with SClient n => [n] | _ => [] end) q.
Definition rx_servers (q : list (started name)) : list (name * name) :=
  flat_map (fun x => match x with SServer n a => [(n, a)] | _ => [] end) q.

Lemma drain_eq : forall q cs ss,
  drain q cs ss = (cs ++ rx_clients q, ss ++ rx_servers q).
Proof.
  induction q as [|[n|n a] q IH]; intros cs ss; cbn [drain rx_clients rx_servers flat_map app].
  - rewrite !app_nil_r. reflexivity.
  - rewrite IH. unfold rx_clients, rx_servers. rewrite <- app_assoc. reflexivity.
  - rewrite IH. unfold rx_clients, rx_servers. rewrite <- app_assoc. reflexivity.
Qed.

(** What has been handed in and not been given out yet *)
Definition fl_clients e := clients_in (e_status e) ++ e_clients e ++ rx_clients (e_rx e).
Definition fl_servers e := servers_in (e_status e) ++ e_servers e ++ rx_servers (e_rx e).

Definition lost (r : eout name) : bool := match r with Kept false => true | _ => false end.
Definition op_clients (o : eop name) := match o with EStart (SClient n) => [n] | _ => [] end.
Definition op_servers (o : eop name) := match o with EStart (SServer n a) => [(n, a)] | _ => [] end.
Definition out_events (r : eout name) := match r with Got (Some x) => [x] | _ => [] end.

Lemma clients_in_app : forall a b : list (event name), clients_in (a ++ b) = clients_in a ++ clients_in b.
Proof. intros. apply flat_map_app. Qed.
Lemma servers_in_app : forall a b : list (event name), servers_in (a ++ b) = servers_in a ++ servers_in b.
Proof. intros. apply flat_map_app. Qed.

Lemma push_cases : forall A (x : A) q q' b, push x q = (q', b) ->
  (b = true /\ q' = q ++ [x] /\ length q < CAP) \/ (b = false /\ q' = q /\ length q >= CAP).
Proof.
  intros A x q q' b H. unfold push in H. destruct (length q <? CAP) eqn:L;
    apply pair_equal_spec in H as [<- <-].
  - left. apply Nat.ltb_lt in L. auto.
  - right. apply Nat.ltb_ge in L. auto.
Qed.

(** One step: in flight before, plus what is handed in, is what is given out plus in flight
    after; entries go missing only when something was turned away. *)
Lemma step_flow : forall e o e' r, estep e o = (e', r) ->
  (lost r = false ->
     fl_clients e ++ op_clients o = clients_in (out_events r) ++ fl_clients e' /\
     fl_servers e ++ op_servers o = servers_in (out_events r) ++ fl_servers e') /\
  subseq (clients_in (out_events r) ++ fl_clients e') (fl_clients e ++ op_clients o) /\
  subseq (servers_in (out_events r) ++ fl_servers e') (fl_servers e ++ op_servers o).
Proof.
  intros e o e' r H.
  assert (Fin : forall A B (x y : list A) (z w : list B) (b : bool),
     (b = false -> x = y /\ z = w) -> subseq y x -> subseq w z ->
     (b = false -> x = y /\ z = w) /\ subseq y x /\ subseq w z) by auto.
  assert (Same : forall A B (x y : list A) (z w : list B) (P : Prop),
     x = y -> z = w -> (P -> x = y /\ z = w) /\ subseq y x /\ subseq w z).
  { intros A B x y z w P -> ->. split; [auto|]. split; apply subseq_refl. }
  destruct o; unfold estep in H; cbv zeta in H.
  - (* EStart *)
    destruct (push x (e_rx e)) as [q b] eqn:P. apply pair_equal_spec in H as [<- <-].
    unfold fl_clients, fl_servers. cbn [e_status e_clients e_servers e_rx out_events clients_in servers_in flat_map app].
    apply push_cases in P as [(-> & -> & _)|(-> & -> & _)].
    + apply Same; unfold rx_clients, rx_servers; rewrite flat_map_app, <- !app_assoc; do 2 f_equal;
        destruct x; cbn; reflexivity.
    + apply Fin; [discriminate| |]; apply subseq_app_l, subseq_refl.
  - apply pair_equal_spec in H as [<- <-]. apply Same; cbn; rewrite app_nil_r; reflexivity.
  - apply pair_equal_spec in H as [<- <-]. apply Same; cbn; rewrite app_nil_r; reflexivity.
  - apply pair_equal_spec in H as [<- <-]. apply Same; cbn; rewrite app_nil_r; reflexivity.
  - apply pair_equal_spec in H as [<- <-]. apply Same; cbn; rewrite app_nil_r; reflexivity.
  - apply pair_equal_spec in H as [<- <-]. apply Same; cbn; rewrite app_nil_r; reflexivity.
  - (* EPoll *)
    destruct (em_poll fired e) as [e1 b] eqn:P. apply pair_equal_spec in H as [<- <-].
    unfold em_poll in P. rewrite drain_eq in P. unfold fl_clients, fl_servers.
    destruct fired.
    + destruct (push _ (e_status e)) as [q b'] eqn:Q. apply pair_equal_spec in P as [<- <-].
      cbn [e_status e_clients e_servers e_rx out_events op_clients op_servers].
      change (@clients_in name []) with (@nil name). change (@servers_in name []) with (@nil (name * name)).
      change (rx_clients []) with (@nil name). change (rx_servers []) with (@nil (name * name)).
      cbn [app]. rewrite !app_nil_r.
      apply push_cases in Q as [(-> & -> & _)|(-> & -> & _)].
      * rewrite clients_in_app, servers_in_app.
        apply Same; cbn [clients_in servers_in flat_map]; rewrite app_nil_r; reflexivity.
      * apply Fin; [discriminate| |]; apply subseq_app_l, subseq_refl.
    + apply pair_equal_spec in P as [<- <-].
      apply Same; cbn [e_status e_clients e_servers e_rx out_events clients_in servers_in flat_map app rx_clients rx_servers op_clients op_servers];
        rewrite !app_nil_r; reflexivity.
  - (* EShut *)
    destruct (em_shutdown e) as [e1 b] eqn:P. apply pair_equal_spec in H as [<- <-].
    unfold em_shutdown in P. unfold fl_clients, fl_servers.
    destruct (e_state e).
    + destruct (push _ (e_status e)) as [q b'] eqn:Q. apply pair_equal_spec in P as [<- <-].
      cbn [e_status e_clients e_servers e_rx out_events op_clients op_servers]. rewrite !app_nil_r.
      apply push_cases in Q as [(-> & -> & _)|(-> & -> & _)].
      * rewrite clients_in_app, servers_in_app.
        apply Same; cbn [clients_in servers_in flat_map app]; rewrite ?app_nil_r; reflexivity.
      * apply Same; reflexivity.
    + destruct (push _ (e_status e)) as [q b'] eqn:Q. apply pair_equal_spec in P as [<- <-].
      cbn [e_status e_clients e_servers e_rx out_events op_clients op_servers]. rewrite !app_nil_r.
      apply push_cases in Q as [(-> & -> & _)|(-> & -> & _)].
      * rewrite clients_in_app, servers_in_app.
        apply Same; cbn [clients_in servers_in flat_map app]; rewrite ?app_nil_r; reflexivity.
      * apply Same; reflexivity.
    + apply pair_equal_spec in P as [<- <-]. apply Same; cbn; rewrite ?app_nil_r; reflexivity.
  - (* ERecv *)
    destruct (em_recv e) as [e1 x] eqn:P. apply pair_equal_spec in H as [<- <-].
    unfold em_recv in P. unfold fl_clients, fl_servers.
    destruct (e_status e) as [|y t] eqn:Q; apply pair_equal_spec in P as [<- <-].
    + rewrite Q. apply Same; cbn; rewrite ?app_nil_r; reflexivity.
    + cbn [e_status e_clients e_servers e_rx out_events op_clients op_servers].
      rewrite !app_nil_r. change (y :: t) with ([y] ++ t). rewrite clients_in_app, servers_in_app, <- !app_assoc.
      apply Same; reflexivity.
Qed.

Lemma got_cons : forall o r tr, got ((o, r) :: tr) = out_events r ++ got tr.
Proof. reflexivity. Qed.
Lemma clients_started_cons : forall o r tr, clients_started ((o, r) :: tr) = op_clients o ++ clients_started tr.
Proof. reflexivity. Qed.
Lemma servers_started_cons : forall o r tr, servers_started ((o, r) :: tr) = op_servers o ++ servers_started tr.
Proof. reflexivity. Qed.

Lemma run_flow : forall (os : list (eop name)) e e' tr, erun e os = (e', tr) ->
  (nothing_lost tr ->
     fl_clients e ++ clients_started tr = clients_in (got tr) ++ fl_clients e' /\
     fl_servers e ++ servers_started tr = servers_in (got tr) ++ fl_servers e') /\
  subseq (clients_in (got tr) ++ fl_clients e') (fl_clients e ++ clients_started tr) /\
  subseq (servers_in (got tr) ++ fl_servers e') (fl_servers e ++ servers_started tr).
Proof.
  assert (Tr : forall A (a b c : list A), subseq a b -> subseq b c -> subseq a c).
  { intros A a b c H G. revert a H. induction G as [c|x b c G IH|x b c G IH]; intros a H.
    - inversion H; constructor.
    - apply sub_skip, IH, H.
    - inversion H; subst; [constructor|apply sub_skip, IH; auto|apply sub_keep, IH; auto]. }
  induction os as [|o os IH]; intros e e' tr H; cbn [erun] in H.
  - apply pair_equal_spec in H as [<- <-]. cbn [got clients_started servers_started flat_map clients_in servers_in app].
    rewrite !app_nil_r. split; [auto|]. split; apply subseq_refl.
  - destruct (estep e o) as [e1 r] eqn:S. destruct (erun e1 os) as [e2 t] eqn:R.
    apply pair_equal_spec in H as [<- <-].
    apply step_flow in S as (SA & SB & SC). apply IH in R as (RA & RB & RC).
    rewrite got_cons, clients_started_cons, servers_started_cons, clients_in_app, servers_in_app.
    rewrite <- !app_assoc. split; [|split].
    + intros NL. assert (L : lost r = false).
      { destruct r as [[|]|x]; try reflexivity. exfalso. apply (NL o). left. reflexivity. }
      destruct (SA L) as [S1 S2]. destruct RA as [R1 R2].
      { intros x X. apply (NL x). right. exact X. }
      rewrite <- R1, <- R2, !app_assoc, S1, S2. auto.
    + eapply Tr; [apply subseq_app; [apply subseq_refl|exact RB]|].
      rewrite !app_assoc. apply subseq_app; [exact SB|apply subseq_refl].
    + eapply Tr; [apply subseq_app; [apply subseq_refl|exact RC]|].
      rewrite !app_assoc. apply subseq_app; [exact SC|apply subseq_refl].
Qed.

Lemma in_order : forall (os : list (eop name)) e tr, erun em0 os = (e, tr) ->
  subseq (clients_in (got tr)) (clients_started tr) /\ subseq (servers_in (got tr)) (servers_started tr).
Proof.
  intros os e tr H. apply run_flow in H as (_ & A & B).
  split; eapply subseq_prefix; [exact A|exact B].
Qed.

(** Reading on empties the queue. *)
Lemma read_all : forall k e e' tr, length (e_status e) <= k ->
  erun e (repeat ERecv k) = (e', tr) ->
  got tr = e_status e /\ nothing_lost tr /\ clients_started tr = [] /\ servers_started tr = [] /\
  e_status e' = [] /\ e_clients e' = e_clients e /\ e_servers e' = e_servers e /\ e_rx e' = e_rx e.
Proof.
  induction k as [|k IH]; intros e e' tr L H; cbn [repeat erun] in H.
  - apply pair_equal_spec in H as [<- <-]. destruct (e_status e) as [|x t]; [|cbn in L; lia].
    split; [reflexivity|]. split; [intros o []|]. auto 10.
  - unfold estep in H. destruct (em_recv e) as [e1 x] eqn:P.
    destruct (erun e1 (repeat ERecv k)) as [e2 t] eqn:R. apply pair_equal_spec in H as [<- <-].
    unfold em_recv in P. destruct (e_status e) as [|y q] eqn:Q; apply pair_equal_spec in P as [<- <-].
    + apply IH in R as (A & B & C & D & E & F & G & I); [|rewrite Q; cbn; lia].
      rewrite got_cons, clients_started_cons, servers_started_cons, A, C, D, Q.
      split; [reflexivity|]. split; [|auto 10].
      intros o [X|X]; [discriminate|exact (B o X)].
    + apply IH in R as (A & B & C & D & E & F & G & I); [|cbn [e_status]; cbn [length] in L; lia].
      cbn [e_status e_clients e_servers e_rx] in *.
      rewrite got_cons, clients_started_cons, servers_started_cons, A, C, D.
      split; [reflexivity|]. split; [|auto 10].
      intros o [X|X]; [discriminate|exact (B o X)].
Qed.

Lemma status_cap : forall (os : list (eop name)) e tr, erun em0 os = (e, tr) ->
  length (e_status e) <= CAP /\ length (e_rx e) <= backlog tr /\
  length (got tr) + length (e_status e) <= puts tr.
Proof.
  induction os as [|o os IH] using rev_ind; intros e tr H.
  - apply pair_equal_spec in H as [<- <-]. cbn. unfold CAP. lia.
  - rewrite erun_app in H. destruct (erun em0 os) as [e1 t] eqn:R.
    cbn [erun] in H. destruct (estep e1 o) as [e2 r] eqn:S. apply pair_equal_spec in H as [<- <-].
    destruct (IH _ _ eq_refl) as (A & B & C).
    unfold backlog, puts, got in *. rewrite fold_left_app, filter_app, flat_map_app, !app_length.
    cbn [fold_left fst]. set (bl := fold_left _ t 0) in *.
    set (pu := length (filter _ t)) in *. set (go := length (flat_map _ t)) in *.
    destruct o; unfold estep in S; cbv zeta in S.
    + destruct (push x (e_rx e1)) as [q b] eqn:P. apply pair_equal_spec in S as [<- <-].
      cbn. apply push_cases in P as [(-> & -> & _)|(-> & -> & _)]; rewrite ?app_length; cbn; lia.
    + apply pair_equal_spec in S as [<- <-]. cbn. lia.
    + apply pair_equal_spec in S as [<- <-]. cbn. lia.
    + apply pair_equal_spec in S as [<- <-]. cbn. lia.
    + apply pair_equal_spec in S as [<- <-]. cbn. lia.
    + apply pair_equal_spec in S as [<- <-]. cbn. lia.
    + unfold em_poll in S. rewrite drain_eq in S. destruct fired.
      * destruct (push _ (e_status e1)) as [q b] eqn:P. apply pair_equal_spec in S as [<- <-].
        apply push_cases in P as [(-> & -> & G)|(-> & -> & G)]; cbn; rewrite ?app_length; cbn; lia.
      * apply pair_equal_spec in S as [<- <-]. cbn. lia.
    + unfold em_shutdown in S. destruct (e_state e1).
      * destruct (push _ (e_status e1)) as [q b] eqn:P. apply pair_equal_spec in S as [<- <-].
        apply push_cases in P as [(-> & -> & G)|(-> & -> & G)]; cbn; rewrite ?app_length; cbn; lia.
      * destruct (push _ (e_status e1)) as [q b] eqn:P. apply pair_equal_spec in S as [<- <-].
        apply push_cases in P as [(-> & -> & G)|(-> & -> & G)]; cbn; rewrite ?app_length; cbn; lia.
      * apply pair_equal_spec in S as [<- <-]. cbn. lia.
    + unfold em_recv in S. destruct (e_status e1) as [|y q] eqn:Q; apply pair_equal_spec in S as [<- <-];
        cbn in *; rewrite ?Q; cbn; lia.
Qed.

Lemma all_told : forall (os : list (eop name)) e tr k e1 t1 r e2 t2,
  erun em0 os = (e, tr) -> nothing_lost tr ->
  estep e (EPoll true) = (e1, r) -> r = Kept true -> t1 = [(EPoll true, r)] ->
  CAP <= k -> erun e1 (repeat ERecv k) = (e2, t2) ->
  clients_in (got (tr ++ t1 ++ t2)) = clients_started tr /\
  servers_in (got (tr ++ t1 ++ t2)) = servers_started tr.
Proof.
  intros os e tr k e1 t1 r e2 t2 R NL P -> -> K R2.
  assert (Rall : erun em0 (os ++ EPoll true :: repeat ERecv k) = (e2, tr ++ [(EPoll true, Kept true)] ++ t2)).
  { rewrite erun_app, R. cbn [erun]. rewrite P, R2. reflexivity. }
  assert (Lq : length (e_status e1) <= k).
  { assert (R1 : erun em0 (os ++ [EPoll true]) = (e1, tr ++ [(EPoll true, Kept true)])).
    { rewrite erun_app, R. cbn [erun]. rewrite P. reflexivity. }
    apply status_cap in R1. lia. }
  assert (E1 : e_clients e1 = [] /\ e_servers e1 = [] /\ e_rx e1 = []).
  { unfold estep in P. unfold em_poll in P. rewrite drain_eq in P.
    destruct (push _ (e_status e)) as [q b]. apply pair_equal_spec in P as [<- _]. auto. }
  apply read_all in R2 as (A & B & C & D & E & F & G & I); [|exact Lq].
  apply run_flow in Rall as (Fl & _).
  assert (NL' : nothing_lost (tr ++ [(EPoll true, Kept true)] ++ t2)).
  { intros o X. apply in_app_iff in X as [X|X]; [exact (NL o X)|]. apply in_app_iff in X as [[X|[]]|X]; [discriminate|exact (B o X)]. }
  destruct (Fl NL') as [F1 F2]. destruct E1 as (E1 & E2 & E3).
  unfold fl_clients, fl_servers in F1, F2. rewrite E, F, G, I, E1, E2, E3 in *.
  cbn [em0 e_status e_clients e_servers e_rx clients_in servers_in rx_clients rx_servers flat_map app] in F1, F2.
  rewrite !app_nil_r in F1, F2.
  cbn [app] in *. rewrite <- F1, <- F2. unfold clients_started, servers_started in *.
  rewrite !flat_map_app. cbn [flat_map fst app]. rewrite C, D, !app_nil_r. auto.
Qed.

(** ** Counters *)
Lemma sum_app : forall a b, sum (a ++ b) = (sum a + sum b)%N.
Proof. induction a as [|x a IH]; intros b; cbn; [reflexivity|]. fold (sum (a ++ b)) (sum a). rewrite IH. lia. Qed.

Lemma last_snoc : forall (l : list N) x d, last (l ++ [x]) d = x.
Proof. intros. apply last_last. Qed.

Lemma wrap_add : forall a b, (wrap (a mod 2 ^ 64 + b) = (a + b) mod 2 ^ 64)%N.
Proof. intros. unfold wrap. rewrite N.add_mod_idemp_l; [reflexivity|]. intros X. discriminate X. Qed.

Lemma counters_run : forall (os : list (eop name)) e tr, erun em0 os = (e, tr) -> e_cnt e = totals tr.
Proof.
  induction os as [|o os IH] using rev_ind; intros e tr H.
  - apply pair_equal_spec in H as [<- <-]. reflexivity.
  - rewrite erun_app in H. destruct (erun em0 os) as [e1 t] eqn:R.
    cbn [erun] in H. destruct (estep e1 o) as [e2 r] eqn:S. apply pair_equal_spec in H as [<- <-].
    specialize (IH _ _ eq_refl). unfold totals in *. cbv zeta in *. rewrite !flat_map_app.
    cbn [flat_map fst].
    destruct o; unfold estep in S; cbv zeta in S.
    + destruct (push x (e_rx e1)) as [q b]. apply pair_equal_spec in S as [<- _].
      cbn [e_cnt]. rewrite IH, !app_nil_r. reflexivity.
    + apply pair_equal_spec in S as [<- _]. cbn [e_cnt set_cnt]. rewrite IH. cbn [app].
      rewrite !app_nil_r, last_snoc. reflexivity.
    + apply pair_equal_spec in S as [<- _]. cbn [e_cnt set_cnt]. rewrite IH. cbn [app n_transit n_transit_bw n_conn n_bw n_built n_failed].
      rewrite !app_nil_r, sum_app, wrap_add. cbn [sum fold_right]. rewrite N.add_0_r. reflexivity.
    + apply pair_equal_spec in S as [<- _]. cbn [e_cnt set_cnt]. rewrite IH. cbn [app].
      rewrite !app_nil_r, last_snoc. reflexivity.
    + apply pair_equal_spec in S as [<- _]. cbn [e_cnt set_cnt]. rewrite IH. cbn [app n_transit n_transit_bw n_conn n_bw n_built n_failed].
      rewrite !app_nil_r, sum_app, wrap_add. cbn [sum fold_right]. rewrite N.add_0_r. reflexivity.
    + apply pair_equal_spec in S as [<- _]. cbn [e_cnt set_cnt]. rewrite IH. cbn [app n_transit n_transit_bw n_conn n_bw n_built n_failed].
      rewrite !app_nil_r, !sum_app, !wrap_add. cbn [sum fold_right]. rewrite !N.add_0_r. reflexivity.
    + rewrite !app_nil_r, <- IH. unfold em_poll in S. destruct (drain _ _ _) as [cs ss]. destruct fired.
      * destruct (push _ (e_status e1)) as [q b]. apply pair_equal_spec in S as [<- _]. reflexivity.
      * apply pair_equal_spec in S as [<- _]. reflexivity.
    + rewrite !app_nil_r, <- IH. unfold em_shutdown in S. destruct (e_state e1).
      * destruct (push _ (e_status e1)) as [q b]. apply pair_equal_spec in S as [<- _]. reflexivity.
      * destruct (push _ (e_status e1)) as [q b]. apply pair_equal_spec in S as [<- _]. reflexivity.
      * apply pair_equal_spec in S as [<- _]. reflexivity.
    + rewrite !app_nil_r, <- IH. unfold em_recv in S. destruct (e_status e1);
        apply pair_equal_spec in S as [<- _]; reflexivity.
Qed.

(** Where an event of the queue, or one read, comes from *)
Definition from_poll tr cs ss k : Prop :=
  exists a b, tr = a ++ (EPoll true, Kept true) :: b /\ k = totals a /\
    subseq cs (clients_started a) /\ subseq ss (servers_started a).

Lemma from_poll_more : forall tr x cs ss k, from_poll tr cs ss k -> from_poll (tr ++ [x]) cs ss k.
Proof. intros tr x cs ss k (a & b & -> & E). exists a, (b ++ [x]). rewrite <- app_assoc. auto. Qed.

Lemma status_from : forall (os : list (eop name)) e tr, erun em0 os = (e, tr) ->
  forall cs ss k, In (RouterStatus cs ss k) (got tr ++ e_status e) -> from_poll tr cs ss k.
Proof.
  induction os as [|o os IH] using rev_ind; intros e tr H cs ss k I.
  - apply pair_equal_spec in H as [<- <-]. destruct I.
  - rewrite erun_app in H. destruct (erun em0 os) as [e1 t] eqn:R.
    cbn [erun] in H. destruct (estep e1 o) as [e2 r] eqn:S. apply pair_equal_spec in H as [<- <-].
    specialize (IH _ _ eq_refl). unfold got in I. rewrite flat_map_app, <- app_assoc in I. fold (got t) in I. cbn [flat_map snd] in I.
    assert (Old : In (RouterStatus cs ss k) (got t ++ e_status e1) -> from_poll (t ++ [(o, r)]) cs ss k).
    { intros X. apply from_poll_more, IH, X. }
    destruct o; unfold estep in S; cbv zeta in S.
    + destruct (push x (e_rx e1)) as [q b]. apply pair_equal_spec in S as [<- <-]. apply Old. exact I.
    + apply pair_equal_spec in S as [<- <-]. apply Old. exact I.
    + apply pair_equal_spec in S as [<- <-]. apply Old. exact I.
    + apply pair_equal_spec in S as [<- <-]. apply Old. exact I.
    + apply pair_equal_spec in S as [<- <-]. apply Old. exact I.
    + apply pair_equal_spec in S as [<- <-]. apply Old. exact I.
    + unfold em_poll in S. rewrite drain_eq in S. destruct fired.
      * destruct (push _ (e_status e1)) as [q b] eqn:P. apply pair_equal_spec in S as [<- <-].
        apply push_cases in P as [(-> & -> & _)|(-> & -> & _)]; [|apply Old; exact I].
        cbn [app e_status] in I. rewrite app_assoc in I. apply in_snoc in I as [I|I]; [apply Old; exact I|].
        assert (J : cs = e_clients e1 ++ rx_clients (e_rx e1) /\ ss = e_servers e1 ++ rx_servers (e_rx e1) /\ k = e_cnt e1)
          by (split; [congruence|split; congruence]).
        destruct J as (-> & -> & ->).
        exists t, []. split; [reflexivity|]. split; [eapply counters_run; exact R|].
        apply run_flow in R as (_ & FA & FB).
        cbn [fl_clients fl_servers em0 e_status e_clients e_servers e_rx clients_in servers_in rx_clients rx_servers flat_map app] in FA, FB.
        unfold fl_clients in FA. unfold fl_servers in FB.
        rewrite app_assoc in FA, FB. apply (subseq_drop []) in FA. apply (subseq_drop []) in FB. split; [exact FA|exact FB].
      * apply pair_equal_spec in S as [<- <-]. apply Old. exact I.
    + assert (St : e_status e2 = e_status e1 \/ exists x, e_status e2 = e_status e1 ++ [x] /\ is_shut x = true).
      { unfold em_shutdown in S. destruct (e_state e1).
        - destruct (push _ (e_status e1)) as [q b] eqn:P. apply pair_equal_spec in S as [<- <-].
          apply push_cases in P as [(-> & -> & _)|(-> & -> & _)]; [right; exists ShuttingDown; auto|auto].
        - destruct (push _ (e_status e1)) as [q b] eqn:P. apply pair_equal_spec in S as [<- <-].
          apply push_cases in P as [(-> & -> & _)|(-> & -> & _)]; [right; exists ShutDown; auto|auto].
        - apply pair_equal_spec in S as [<- <-]. auto. }
      assert (Rk : exists b, r = Kept b) by (destruct (em_shutdown e1); apply pair_equal_spec in S as [_ <-]; eauto).
      destruct Rk as [b ->]. cbn [app] in I.
      destruct St as [St|(x & St & Sx)]; rewrite St in I; [apply Old; exact I|].
      rewrite app_assoc in I. apply in_snoc in I as [I|I]; [apply Old; exact I|]. rewrite <- I in Sx. discriminate.
    + unfold em_recv in S. destruct (e_status e1) as [|y q] eqn:Q; apply pair_equal_spec in S as [<- <-].
      * apply Old. cbn [app] in I. rewrite Q in I. exact I.
      * apply Old. exact I.
Qed.

(** ** The order of the two notices *)
Definition said (s : estate) : list (event name) :=
  match s with Active => [] | Closing => [ShuttingDown] | Closed => [ShuttingDown; ShutDown] end.

Lemma notices : forall (os : list (eop name)) e tr, erun em0 os = (e, tr) ->
  subseq (filter is_shut (got tr ++ e_status e)) (said (e_state e)).
Proof.
  induction os as [|o os IH] using rev_ind; intros e tr H.
  - apply pair_equal_spec in H as [<- <-]. cbn. constructor.
  - rewrite erun_app in H. destruct (erun em0 os) as [e1 t] eqn:R.
    cbn [erun] in H. destruct (estep e1 o) as [e2 r] eqn:S. apply pair_equal_spec in H as [<- <-].
    specialize (IH _ _ eq_refl). unfold got. rewrite flat_map_app, <- app_assoc. fold (got t). cbn [flat_map snd].
    destruct o; unfold estep in S; cbv zeta in S.
    + destruct (push x (e_rx e1)) as [q b]. apply pair_equal_spec in S as [<- <-]. exact IH.
    + apply pair_equal_spec in S as [<- <-]. exact IH.
    + apply pair_equal_spec in S as [<- <-]. exact IH.
    + apply pair_equal_spec in S as [<- <-]. exact IH.
    + apply pair_equal_spec in S as [<- <-]. exact IH.
    + apply pair_equal_spec in S as [<- <-]. exact IH.
    + unfold em_poll in S. destruct (drain _ _ _) as [cs ss]. destruct fired.
      * destruct (push _ (e_status e1)) as [q b] eqn:P. apply pair_equal_spec in S as [<- <-].
        apply push_cases in P as [(-> & -> & _)|(-> & -> & _)]; [|exact IH].
        cbn [app e_status e_state]. rewrite app_assoc, filter_app. cbn [filter is_shut]. rewrite app_nil_r. exact IH.
      * apply pair_equal_spec in S as [<- <-]. exact IH.
    + unfold em_shutdown in S. destruct (e_state e1) eqn:Es.
      * destruct (push _ (e_status e1)) as [q b] eqn:P. apply pair_equal_spec in S as [<- <-].
        cbn [app e_status e_state said] in *.
        apply push_cases in P as [(-> & -> & _)|(-> & -> & _)].
        -- rewrite app_assoc, filter_app. cbn [filter is_shut]. apply (subseq_app _ [] _ [ShuttingDown]); [exact IH|apply subseq_refl].
        -- eapply (subseq_app_l _ [ShuttingDown] []). exact IH.
      * destruct (push _ (e_status e1)) as [q b] eqn:P. apply pair_equal_spec in S as [<- <-].
        cbn [app e_status e_state said] in *.
        apply push_cases in P as [(-> & -> & _)|(-> & -> & _)].
        -- rewrite app_assoc, filter_app. cbn [filter is_shut]. apply (subseq_app _ [ShuttingDown] _ [ShutDown]); [exact IH|apply subseq_refl].
        -- eapply (subseq_app_l _ [ShutDown] [ShuttingDown]). exact IH.
      * apply pair_equal_spec in S as [<- <-]. cbn [app]. rewrite Es. exact IH.
    + unfold em_recv in S. destruct (e_status e1) as [|y q] eqn:Q; apply pair_equal_spec in S as [<- <-].
      * cbn [app]. rewrite Q in *. exact IH.
      * exact IH.
Qed.
End Ev.
