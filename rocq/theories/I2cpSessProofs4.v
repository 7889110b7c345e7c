(** The I2CP server. *)
From Coq Require Import Ascii String.
From Coq Require Import List NArith PeanoNat Bool Lia.
From Verif Require Import ListUtil Bytes NMap PrimModel EncModel I2cpModel SamModel RouteProofs DestModel SamSessSpec I2cpSessModel I2cpSessSpec I2cpSessProofs.
Import ListNotations.
Local Open Scope list_scope.
Open Scope N_scope.

Section S.
Variables (book : bool) (did : bytes -> N) (written : destination -> bytes).
Notation sst := (sstep book did written).
Notation srn := (srun book did written).

Lemma srun_app s a b : srn s (a ++ b) = (fst (srn (fst (srn s a)) b), snd (srn s a) ++ snd (srn (fst (srn s a)) b)).
Proof.
  revert s. induction a as [|op a IH]; intros s; cbn [srun app].
  - cbn. destruct (srn s b); auto.
  - destruct (sst s op) as [s1 o]. rewrite IH. destruct (srn s1 a) as [s2 os]. reflexivity.
Qed.

(** ** Ids *)
Definition ids (n : nat) : list (N * N) := map (fun i => (N.of_nat i, (N.of_nat i + 1) mod 2 ^ 16)) (seq 0 n).
Lemma greeted_app a b : greeted (a ++ b) = greeted a ++ greeted b. Proof. unfold greeted. now rewrite concat_app, flat_map_app. Qed.
Lemma greeted_outs k o : greeted [map (SOut k) o] = [].
Proof. unfold greeted. cbn [concat]. rewrite app_nil_r. induction o; cbn; auto. Qed.
Lemma ids_step s op s' o n : sst s op = (s', o) -> s_next s = (s_count s + 1) mod 2 ^ 16 -> s_count s = N.of_nat n ->
  exists n', s_next s' = (s_count s' + 1) mod 2 ^ 16 /\ s_count s' = N.of_nat n' /\ ids n' = ids n ++ greeted [o].
Proof.
  intros E I1 I2. assert (Same : s_next s' = s_next s -> s_count s' = s_count s -> greeted [o] = [] ->
    exists n', s_next s' = (s_count s' + 1) mod 2 ^ 16 /\ s_count s' = N.of_nat n' /\ ids n' = ids n ++ greeted [o]).
  { intros -> -> ->. exists n. rewrite app_nil_r. auto. }
  destruct op as [byte|k c]; cbn [sstep] in E.
  - destruct (negb (s_up s)); [injection E as <- <-; apply Same; reflexivity|].
    destruct (byte =? 42); [|injection E as <- <-; apply Same; reflexivity].
    apply pair_equal_spec in E as [<- <-]. exists (S n). cbn [s_next s_count]. split; [rewrite I1; apply N.add_mod_idemp_l; discriminate|].
    split; [lia|]. unfold ids. rewrite seq_S, map_app. cbn [map greeted concat flat_map app Nat.add]. rewrite I1, I2. reflexivity.
  - destruct (nget k (s_conns s)) as [[sid c0]|]; [|injection E as <- <-; apply Same; reflexivity].
    destruct (cstep _ _ _ _ c0 c) as [c1 oc]. cbv zeta in E. destruct (_ && _); apply pair_equal_spec in E as [<- <-]; apply Same; try reflexivity.
    + unfold greeted. cbn [concat]. rewrite app_nil_r, flat_map_app.
      pose proof (greeted_outs k oc) as G. unfold greeted in G. cbn [concat] in G. rewrite app_nil_r in G. rewrite G. reflexivity.
    + apply greeted_outs.
Qed.
Lemma ids_run ops : forall s s' os n, srn s ops = (s', os) -> s_next s = (s_count s + 1) mod 2 ^ 16 -> s_count s = N.of_nat n ->
  exists n', s_count s' = N.of_nat n' /\ ids n' = ids n ++ greeted os.
Proof.
  induction ops as [|op ops IH]; intros s s' os n E I1 I2; cbn [srun] in E.
  - injection E as <- <-. exists n. split; auto. cbn. now rewrite app_nil_r.
  - destruct (sst s op) as [s1 o] eqn:E1. destruct (srn s1 ops) as [s2 os2] eqn:E2. injection E as <- <-.
    destruct (ids_step _ _ _ _ _ E1 I1 I2) as (n1 & J1 & J2 & J3). destruct (IH _ _ _ _ E2 J1 J2) as (n2 & K1 & K2). exists n2. split; auto.
    rewrite K2, J3, <- app_assoc. f_equal. now rewrite <- greeted_app.
Qed.

(** ** Isolation *)
Lemma outs_of_app k a b : outs_of k (a ++ b) = outs_of k a ++ outs_of k b. Proof. unfold outs_of. now rewrite concat_app, flat_map_app. Qed.
Lemma outs_of_same k o : outs_of k [map (SOut k) o] = o.
Proof. unfold outs_of. cbn [concat]. rewrite app_nil_r. induction o; cbn; auto. rewrite N.eqb_refl. cbn. now rewrite IHo. Qed.
Lemma outs_of_other k j o : j <> k -> outs_of k [map (SOut j) o] = [].
Proof. intros H. apply N.eqb_neq in H. unfold outs_of. cbn [concat]. rewrite app_nil_r. induction o; cbn; auto. now rewrite H. Qed.
Definition down (o : list sout) : bool := existsb (fun x => match x with Down => true | _ => false end) o.
Lemma no_down k o : down (map (SOut k) o) = false. Proof. induction o; cbn; auto. Qed.
Definition is_setup (c : conn) : bool := match c with Setup _ => true | _ => false end.
Lemma nget_only k m v : sorted (nkeys m) -> nget k m = Some v -> is_setup (snd v) = false -> nget k (only_active m) = Some v.
Proof.
  intros Sd. apply sorted_NoDup in Sd. induction m as [|[k' v'] m IH]; [discriminate|]. cbn [nget only_active filter snd nkeys map fst] in *. inversion Sd as [|? ? Hn Nd]; subst.
  destruct (N.eqb_spec k k') as [->|Hne].
  - intros H Hs. injection H as ->. unfold is_setup in Hs. destruct (snd v); try discriminate; cbn [nget]; now rewrite N.eqb_refl.
  - intros H Hs. specialize (IH Nd H Hs). unfold only_active in IH. destruct (match snd v' with Setup _ => false | _ => true end); auto.
    cbn [nget]. apply N.eqb_neq in Hne. now rewrite Hne.
Qed.
Lemma only_sorted m : sorted (nkeys m) -> sorted (nkeys (only_active m)).
Proof.
  unfold sorted. induction m as [|[k v] m IH]; intros H; auto. inversion H as [|? ? Hs Ha]; subst. cbn [only_active filter]. specialize (IH Hs).
  destruct (match snd (snd (k, v)) with Setup _ => false | _ => true end); auto. cbn [nkeys map fst]. constructor; auto. apply Forall_forall. intros x Hx. rewrite Forall_forall in Ha. apply Ha.
  clear - Hx. apply in_map_iff in Hx as ((a & b) & <- & H). apply filter_In in H as [H _]. apply in_map_iff. exists (a, b); auto.
Qed.

Lemma conn_step s op s' o k sid c : sst s op = (s', o) -> sorted (nkeys (s_conns s)) -> nget k (s_conns s) = Some (sid, c) -> k < s_count s ->
  (down o = false \/ is_setup c = false) ->
  sorted (nkeys (s_conns s')) /\ k < s_count s' /\
  exists c', nget k (s_conns s') = Some (sid, c') /\ (is_setup c = false -> is_setup c' = false) /\
    match ops_of k [op] with
    | [x] => cstep sid book did written c x = (c', outs_of k [o])
    | _ => c' = c /\ outs_of k [o] = []
    end.
Proof.
  intros E Sd G L Hd. destruct op as [byte|j x]; cbn [sstep] in E.
  - assert (Same : s' = s -> outs_of k [o] = [] -> sorted (nkeys (s_conns s')) /\ k < s_count s' /\ exists c', nget k (s_conns s') = Some (sid, c') /\ (is_setup c = false -> is_setup c' = false) /\ (c' = c /\ outs_of k [o] = [])) by (intros -> ->; eauto 8).
    cbn [ops_of flat_map]. destruct (negb (s_up s)); [injection E as <- <-; apply Same; reflexivity|].
    destruct (byte =? 42); [|injection E as <- <-; apply Same; reflexivity].
    apply pair_equal_spec in E as [<- <-]. cbn [s_conns s_count]. split; [now apply nput_Sorted|]. split; [lia|]. exists c. split; [|split; [auto|split; reflexivity]].
    rewrite nget_nput. destruct (N.eqb_spec k (s_count s)); [lia|auto].
  - cbn [ops_of flat_map]. destruct (nget j (s_conns s)) as [[sj cj]|] eqn:Gj.
    + destruct (cstep sj book did written cj x) as [c1 oc] eqn:Ec. cbv zeta in E.
      assert (Mem : nget k (nput j (sj, c1) (s_conns s)) = if k =? j then Some (sj, c1) else Some (sid, c)) by (rewrite nget_nput; destruct (k =? j); auto).
      assert (St : is_setup cj = false -> is_setup c1 = false).
      { destruct cj as [p|a|]; [discriminate| |].
        - intros _. destruct (active_stays _ _ _ _ _ _ _ _ Ec) as [(a' & -> & _)|[-> _]]; reflexivity.
        - cbn in Ec. injection Ec as <- _. reflexivity. }
      destruct (existsb _ oc && match cj with Setup _ => true | _ => false end) eqn:Ed.
      * apply pair_equal_spec in E as [<- <-]. cbn [s_conns s_count].
        assert (Dn : down (map (SOut j) oc ++ [Down]) = true) by (unfold down; rewrite existsb_app; cbn; apply orb_true_r).
        destruct Hd as [Hd|Hd]; [congruence|]. split; [now apply only_sorted, nput_Sorted|]. split; [exact L|].
        destruct (N.eqb_spec j k) as [->|Hne].
        -- rewrite Gj in G. injection G as -> ->. apply andb_true_iff in Ed as [_ Ed]. destruct c; discriminate.
        -- cbn [app]. exists c. split; [|split; [auto|split; [auto|]]].
           ++ apply nget_only; auto; [now apply nput_Sorted|]. rewrite Mem. destruct (N.eqb_spec k j); [congruence|auto].
           ++ assert (Z : outs_of k [map (SOut j) oc ++ [Down]] = outs_of k [map (SOut j) oc] ++ outs_of k [[Down]]) by (unfold outs_of; cbn [concat]; rewrite !app_nil_r, flat_map_app; cbn [flat_map]; now rewrite ?app_nil_r).
              rewrite Z, outs_of_other by auto. reflexivity.
      * apply pair_equal_spec in E as [<- <-]. cbn [s_conns s_count]. split; [now apply nput_Sorted|]. split; [exact L|].
        destruct (N.eqb_spec j k) as [->|Hne]; cbn [app].
        -- rewrite Gj in G. injection G as -> ->. exists c1. rewrite Mem, N.eqb_refl. split; [reflexivity|]. split; [exact St|]. now rewrite outs_of_same.
        -- exists c. rewrite Mem. destruct (N.eqb_spec k j); [congruence|]. rewrite outs_of_other by auto. auto.
    + injection E as <- <-. destruct (N.eqb_spec j k) as [->|Hne]; [congruence|]. cbn [app]. eauto 8.
Qed.
Lemma ops_of_cons k op ops : ops_of k (op :: ops) = ops_of k [op] ++ ops_of k ops.
Proof. unfold ops_of. cbn [flat_map]. now rewrite app_nil_r. Qed.
Lemma conn_run ops : forall s s' os k sid c, srn s ops = (s', os) -> sorted (nkeys (s_conns s)) -> nget k (s_conns s) = Some (sid, c) -> k < s_count s ->
  (existsb down os = false \/ is_setup c = false) ->
  exists c' osk, crun sid book did written c (ops_of k ops) = (c', osk) /\ nget k (s_conns s') = Some (sid, c') /\ outs_of k os = concat osk.
Proof.
  induction ops as [|op ops IH]; intros s s' os k sid c E Sd G L Hd; cbn [srun] in E.
  - injection E as <- <-. exists c, []. auto.
  - destruct (sst s op) as [s1 o] eqn:E1. destruct (srn s1 ops) as [s2 os2] eqn:E2. injection E as <- <-.
    cbn [existsb] in Hd. destruct (conn_step s op s1 o k sid c E1 Sd G L) as (S1 & L1 & c1 & G1 & I1 & M).
    { destruct Hd as [Hd|Hd]; auto. apply orb_false_iff in Hd. tauto. }
    destruct (IH s1 s2 os2 k sid c1 E2 S1 G1 L1) as (c' & osk & R & G2 & O).
    { destruct Hd as [Hd|Hd]; auto. apply orb_false_iff in Hd. tauto. }
    change (o :: os2) with ([o] ++ os2). rewrite outs_of_app, ops_of_cons, O.
    assert (Len : ops_of k [op] = [] \/ exists x, ops_of k [op] = [x]).
    { destruct op as [b|j x]; cbn; auto. destruct (j =? k); cbn; eauto. }
    destruct Len as [Ln|[x Ln]]; rewrite Ln in *; cbn [app].
    + destruct M as [-> ->]. exists c', osk. auto.
    + cbn [crun]. rewrite M, R. exists c', (outs_of k [o] :: osk). auto.
Qed.

(** ** What brings a session being set up, and with it the server, down *)
Lemma panic_setup sid p op c o : cstep sid book did written (Setup p) op = (c, o) -> In Panic o ->
  (exists s key ls now room st v opts ins outs, op = CMsg (MCreateLeaseSet2 s key ls []) now room st v /\ p = AwaitingLeaseSet opts ins outs)
  \/ (exists e opts ins outs, op = CTunnel e /\ p = BuildingTunnels opts ins outs /\ pc_in (pool_config opts) = 0).
Proof.
  cbn [cstep]. unfold setup_step. destruct op as [m now room st value| | |e|l|x value|x|l|key v|];
    try (intros H; apply pair_equal_spec in H as [<- <-]; intros []).
  - unfold on_setup_message. destruct (common m now) as [oc|] eqn:Ec.
    + intros H. apply pair_equal_spec in H as [<- <-]. intros X. exfalso. destruct m; cbn [common] in Ec; try discriminate; injection Ec as <-; destruct X as [X|[]]; discriminate.
    + destruct m; try (intros H; apply pair_equal_spec in H as [<- <-]; intros []); cbn [common] in Ec; try discriminate.
      * destruct p; try (intros H; apply pair_equal_spec in H as [<- <-]; intros []). destruct room; intros H; apply pair_equal_spec in H as [<- <-]; [|intros []].
        intros [X|[X|[]]]; discriminate.
      * destruct p; try (intros H; apply pair_equal_spec in H as [<- <-]; intros []). unfold begin. destruct private_keys as [|k ks].
        -- intros _ _. left. do 10 eexists. split; reflexivity.
        -- intros H; apply pair_equal_spec in H as [<- <-]. intros [X|[]]; discriminate.
  - destruct p; intros H; apply pair_equal_spec in H as [<- <-]; intros [].
  - destruct p as [|opts|opts ins outs|opts ins outs]; try (intros H; apply pair_equal_spec in H as [<- <-]; intros []).
    assert (K : forall i u, check sid opts i u = (c, o) -> In Panic o -> pc_in (pool_config opts) = 0).
    { unfold check. intros i u. destruct ((N.of_nat (length i) =? _) && _) eqn:Eb; [|intros H; apply pair_equal_spec in H as [<- <-]; intros []].
      apply andb_true_iff in Eb as [Eb _]. apply N.eqb_eq in Eb. destruct i; [intros _ _; rewrite <- Eb; reflexivity|].
      intros H; apply pair_equal_spec in H as [<- <-]. intros [X|[]]; discriminate. }
    unfold on_tunnel. destruct e; try (intros H; apply pair_equal_spec in H as [<- <-]; intros []); intros H X; right; do 4 eexists; (split; [reflexivity|]); (split; [reflexivity|]); eapply K; eauto.
Qed.
End S.
