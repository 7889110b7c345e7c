(** I2CP connections: setup, messages, lookups, and the server. *)
From Coq Require Import Ascii String.
From Coq Require Import List NArith PeanoNat Bool Lia Permutation.
From Verif Require Import ListUtil Bytes NMap PrimModel PrimSpec PrimProofs PrimProps2 EncModel I2cpModel I2cpSpec I2cpProps SamModel DestModel DestSpec DestProofs DestProofs2 DestProps SamSessSpec SamSessProofs3
  I2cpSessModel I2cpSessSpec I2cpSessProofs I2cpSessProofs2 I2cpSessProofs3 I2cpSessProofs4.
Import ListNotations.
Local Open Scope list_scope.
Open Scope N_scope.

(** Of the examples: a client's destination with hash [h], its messages, and a connection with id 7. *)
Definition dst (h : N) : destination := mkDest [h] [h; h] (Dsa [h]).
Definition create (o : list mapping) : cop := CMsg (MCreateSession (dst 1) 0 o) 5 true NotFound [].
Definition lease_set (keys : list bytes) : cop := CMsg (MCreateLeaseSet2 7 [1] [4; 4] keys) 5 true NotFound [].
Definition send (h : N) (x : bytes) (st : lstatus) : cop := CMsg (MSendMessageExpires 7 (dst h) (0, 0, Datagram) x 0 0 0) 5 true st [].
Definition look (r h : N) (st : lstatus) (v : bytes) : cop := CMsg (MHostLookup 7 r 1000 (Hash [h])) 5 true st v.
Definition look_name (r : N) (n : bytes) : cop := CMsg (MHostLookup 7 r 1000 (HostName n)) 5 true NotFound [].
Definition lease_of (t : N) : lease := mkLease [9] t 600000.
Definition id_name (d : destination) : bytes := lit "id".
Notation ex_run := (crun 7 true be_val id_name).

(** * C110: a session is set up once, from as many tunnels as asked for *)
(** A client is told that its session is created, then asked for a lease set, and then its
    destination begins: in this order and each at most once.  Later requests for a lease set come
    from the active session. *)
Theorem C110_in_this_order : forall sid book did written ops c os,
  crun sid book did written (Setup Inactive) ops = (c, os) ->
  exists k n, steppings (concat os) = firstn k [SCreated; SRequested; SBegun] ++ repeat SRequested n
    /\ ((k < 3)%nat -> n = 0%nat) /\ (k = 3%nat <-> In SBegun (steppings (concat os)))
    /\ match c with Active _ => k = 3%nat | Setup _ => (k < 3)%nat | Over => True end.
Proof.
  intros sid book did written ops c os H. pose proof (setup_inv _ _ _ _ _ _ _ H) as I.
  assert (B3 : forall n, In SBegun (three ++ repeat SRequested n)) by (intros n; cbn; auto).
  assert (B2 : forall n, ~ In SBegun (repeat SRequested n)) by (intros n X; apply repeat_spec in X; discriminate).
  destruct c as [[|o|o i u|o i u]|a|]; cbn [sinv] in I.
  - exists 0%nat, 0%nat. rewrite I. cbn. repeat split; try lia; tauto.
  - destruct I as [-> _]. exists 1%nat, 0%nat. cbn. split; [reflexivity|]. split; [auto|]. split; [|auto]. split; [discriminate|intros [X|[]]; discriminate].
  - destruct I as [-> _]. exists 1%nat, 0%nat. cbn. split; [reflexivity|]. split; [auto|]. split; [|auto]. split; [discriminate|intros [X|[]]; discriminate].
  - destruct I as [-> _]. exists 2%nat, 0%nat. cbn. split; [reflexivity|]. split; [auto|]. split; [|auto]. split; [discriminate|intros [X|[X|[]]]; discriminate].
  - destruct I as [n I]. exists 3%nat, n. rewrite I. split; [reflexivity|]. split; [lia|]. split; [|reflexivity]. split; auto.
  - destruct I as (k & n & I & J). destruct (Nat.le_gt_cases 3 k) as [K|K].
    + exists 3%nat, n. rewrite I. rewrite (firstn_all2 three) by exact K. split; [reflexivity|]. split; [lia|]. split; [|exact Logic.I]. split; auto.
    + exists k, n. rewrite I. split; [reflexivity|]. split; [exact J|]. split; [|exact Logic.I]. split; [lia|]. rewrite (J K). rewrite app_nil_r. intros X. exfalso.
      destruct k as [|[|[|k]]]; [destruct X|destruct X as [X|[]]; discriminate|destruct X as [X|[X|[]]]; discriminate|lia].
Qed.
Print Assumptions C110_in_this_order.

(** A pool is asked for with what the client's options say: numbers in decimal digits, and what is
    not said is three tunnels of two hops each way. *)
Theorem C110_pool_as_asked : forall sid book did written p op c o cfg,
  cstep sid book did written (Setup p) op = (c, o) -> In (AskPool cfg) o ->
  exists d date opts now st v, op = CMsg (MCreateSession d date opts) now true st v
    /\ In (Reply (RpSessionStatus sid SsCreated)) o
    /\ forall key field default, In (key, field, default)
         [(lit "inbound.quantity", pc_in cfg, 3); (lit "inbound.length", pc_in_hops cfg, 2);
          (lit "outbound.quantity", pc_out cfg, 3); (lit "outbound.length", pc_out_hops cfg, 2)] ->
       (mget key opts = None -> field = default)
       /\ (forall v, mget key opts = Some v -> digits v -> decimal v < 2 ^ 64 -> field = decimal v).
Proof.
  intros sid book did written p op c o cfg E H. cbn [cstep] in E. unfold setup_step in E.
  assert (NoAsk : forall q, check sid (fst (fst q)) (snd (fst q)) (snd q) = (c, o) -> False).
  { intros q X. apply check_out in X as [(_ & _ & _ & ->)|[(_ & _ & _ & ->)|(_ & _ & ->)]]; [destruct H as [H|[]]; discriminate|destruct H as [H|[]]; discriminate|destruct H]. }
  destruct op as [m now room st value| | |e|l|x value|x|l|key v|]; try (apply pair_equal_spec in E as [_ <-]; destruct H; fail).
  - unfold on_setup_message in E. destruct (common m now) as [oc|] eqn:Ec.
    { exfalso. apply pair_equal_spec in E as [_ <-]. destruct m; cbn [common] in Ec; try discriminate; injection Ec as <-; destruct H as [H|[]]; discriminate. }
    destruct m; try (apply pair_equal_spec in E as [_ <-]; destruct H; fail); cbn [common] in Ec; try discriminate.
    + destruct p; try (apply pair_equal_spec in E as [_ <-]; destruct H; fail). destruct room; [|apply pair_equal_spec in E as [_ <-]; destruct H; fail].
      cbv zeta in E. apply pair_equal_spec in E as [_ <-]. exists dest, date, options, now, st, value. split; [reflexivity|]. split; [right; left; reflexivity|].
      destruct H as [H|[H|[]]]; [|discriminate]. assert (Hc : cfg = pool_config (with_name (written dest) options)) by congruence. subst cfg. clear H.
      assert (K : forall key, key <> lit "inbound.nickname" -> mget key (with_name (written dest) options) = mget key options).
      { intros key Hk. unfold with_name. destruct (mget (lit "inbound.nickname") options); auto. now apply mget_minsert_other. }
      assert (F : forall key default, key <> lit "inbound.nickname" ->
        (mget key options = None -> num_option key default (with_name (written dest) options) = default)
        /\ (forall v, mget key options = Some v -> digits v -> decimal v < 2 ^ 64 -> num_option key default (with_name (written dest) options) = decimal v)).
      { intros key default Hk. unfold num_option. rewrite (K key Hk). split; [intros ->; reflexivity|]. intros v -> D L. rewrite parse_dec_value by auto.
        destruct (N.leb_spec (decimal v) (2 ^ 64 - 1)); [reflexivity|lia]. }
      intros key field default X.
      destruct X as [X|[X|[X|[X|[]]]]]; apply pair_equal_spec in X as [X <-]; apply pair_equal_spec in X as [<- <-]; unfold pool_config; cbn [pc_in pc_in_hops pc_out pc_out_hops]; apply F; discriminate.
    + destruct p; try (apply pair_equal_spec in E as [_ <-]; destruct H; fail). unfold begin in E. destruct private_keys; apply pair_equal_spec in E as [_ <-]; destruct H as [H|[]]; discriminate.
  - destruct p; apply pair_equal_spec in E as [_ <-]; destruct H.
  - destruct p as [|opts|opts ins outs|opts ins outs]; try (apply pair_equal_spec in E as [_ <-]; destruct H; fail).
    exfalso. unfold on_tunnel in E. destruct e as [t l|t|t|t| |]; try (apply pair_equal_spec in E as [_ <-]; destruct H; fail).
    + exact (NoAsk (opts, nput t l ins, outs) E).
    + exact (NoAsk (opts, ins, sadd t outs) E).
Qed.
Print Assumptions C110_pool_as_asked.

(** While a session is set up, a lease set is asked for only when a tunnel has just been built and
    there are as many as the client wanted; the leases are those of the inbound tunnels there are. *)
Theorem C110_lease_set_request : forall sid book did written ops p os op c o s l,
  crun sid book did written (Setup Inactive) ops = (Setup p, os) ->
  cstep sid book did written (Setup p) op = (c, o) -> In (Reply (RpRequestVariableLeaseSet s l)) o ->
  exists e opts es ins outs, op = CTunnel e /\ is_build e = true /\ building written (ops ++ [op]) opts es
    /\ tunnels_are es ins outs /\ complete opts ins outs = true /\ s = sid /\ l = map snd ins.
Proof.
  intros sid book did written ops p os op c o s l R E H. pose proof (setup_inv _ _ _ _ _ _ _ R) as I. cbn [cstep] in E. unfold setup_step in E.
  destruct op as [m now room st value| | |e|l'|x value|x|l'|key v|]; try (apply pair_equal_spec in E as [_ <-]; destruct H; fail).
  - exfalso. unfold on_setup_message in E. destruct (common m now) as [oc|] eqn:Ec.
    { apply pair_equal_spec in E as [_ <-]. destruct m; cbn [common] in Ec; try discriminate; injection Ec as <-; destruct H as [H|[]]; discriminate. }
    destruct m; try (apply pair_equal_spec in E as [_ <-]; destruct H; fail); cbn [common] in Ec; try discriminate.
    + destruct p; try (apply pair_equal_spec in E as [_ <-]; destruct H; fail). destruct room; apply pair_equal_spec in E as [_ <-]; [destruct H as [H|[H|[]]]; discriminate|destruct H].
    + destruct p; try (apply pair_equal_spec in E as [_ <-]; destruct H; fail). unfold begin in E. destruct private_keys; apply pair_equal_spec in E as [_ <-]; destruct H as [H|[]]; discriminate.
  - destruct p; apply pair_equal_spec in E as [_ <-]; destruct H.
  - destruct p as [|opts|opts ins outs|opts ins outs]; try (apply pair_equal_spec in E as [_ <-]; destruct H; fail).
    cbn [sinv] in I. destruct I as [_ (es & B & T)]. pose proof (building_snoc written ops opts es (CTunnel e) B) as B'. cbn [tunnel_events flat_map app] in B'.
    pose proof (tunnels_step did es ins outs e T) as T'.
    assert (K : forall i u, check sid opts i u = (c, o) -> complete opts i u = true /\ s = sid /\ l = map snd i).
    { intros i u X. apply check_out in X as [(_ & _ & _ & ->)|[(C1 & _ & _ & ->)|(_ & _ & ->)]]; [destruct H as [H|[]]; discriminate| |destruct H].
      destruct H as [H|[]]. assert (Hr : RpRequestVariableLeaseSet sid (map snd i) = RpRequestVariableLeaseSet s l) by congruence. injection Hr as <- <-. auto. }
    unfold on_tunnel in E. destruct e as [t l'|t|t|t| |]; try (apply pair_equal_spec in E as [_ <-]; destruct H; fail).
    + destruct (K _ _ E) as (K1 & K2 & K3). exists (InBuilt t l'), opts, (es ++ [InBuilt t l']), (nput t l' ins), outs. auto 10.
    + destruct (K _ _ E) as (K1 & K2 & K3). exists (OutBuilt t), opts, (es ++ [OutBuilt t]), ins, (sadd t outs). auto 10.
Qed.
Print Assumptions C110_lease_set_request.

(** And it is asked for as soon as that is so. *)
Theorem C110_asked_in_time : forall sid book did written ops opts ins0 outs0 os e,
  crun sid book did written (Setup Inactive) ops = (Setup (BuildingTunnels opts ins0 outs0), os) -> is_build e = true ->
  exists es, building written ops opts es /\ tunnels_are es ins0 outs0
    /\ forall ins outs, tunnels_are (es ++ [e]) ins outs -> complete opts ins outs = true -> ins <> [] ->
         cstep sid book did written (Setup (BuildingTunnels opts ins0 outs0)) (CTunnel e)
         = (Setup (AwaitingLeaseSet opts ins outs), [Reply (RpRequestVariableLeaseSet sid (map snd ins))]).
Proof.
  intros sid book did written ops opts ins0 outs0 os e R Be. pose proof (setup_inv _ _ _ _ _ _ _ R) as (_ & es & B & T). exists es. split; [auto|]. split; [auto|].
  intros ins outs T1 C N. pose proof (tunnels_step did es ins0 outs0 e T) as T'. destruct (tunnels_same _ _ _ _ _ T1 T') as [E1 E2].
  assert (K : check sid opts ins outs = (Setup (AwaitingLeaseSet opts ins outs), [Reply (RpRequestVariableLeaseSet sid (map snd ins))])).
  { unfold check, complete in *. rewrite C. destruct ins; [congruence|reflexivity]. }
  cbn [cstep setup_step]. unfold on_tunnel. destruct e as [t l|t|t|t| |]; try discriminate; rewrite <- E1, <- E2; exact K.
Qed.
Print Assumptions C110_asked_in_time.

(** The destination begins when the client gives a lease set and a key, with the tunnels whose
    leases the client was asked to put into it. *)
Theorem C110_begins_with_these : forall sid book did written ops p os op c o key ls priv ins outs unp,
  crun sid book did written (Setup Inactive) ops = (Setup p, os) ->
  cstep sid book did written (Setup p) op = (c, o) -> In (Begin key ls priv ins outs unp) o ->
  (exists s keys now room st v, op = CMsg (MCreateLeaseSet2 s key ls (priv :: keys)) now room st v)
  /\ In (Reply (RpRequestVariableLeaseSet sid ins)) (concat os)
  /\ exists opts ops1 ops2 es inm, ops = ops1 ++ ops2 /\ building written ops1 opts es /\ tunnels_are es inm outs /\ ins = map snd inm
       /\ (unp = false <-> mget (lit "i2cp.dontPublishLeaseSet") opts = Some (lit "false")).
Proof.
  intros sid book did written ops p os op c o key ls priv ins outs unp R E H. pose proof (setup_inv _ _ _ _ _ _ _ R) as I. cbn [cstep] in E. unfold setup_step in E.
  destruct op as [m now room st value| | |e|l'|x value|x|l'|k v|]; try (apply pair_equal_spec in E as [_ <-]; destruct H; fail).
  - unfold on_setup_message in E. destruct (common m now) as [oc|] eqn:Ec.
    { exfalso. apply pair_equal_spec in E as [_ <-]. destruct m; cbn [common] in Ec; try discriminate; injection Ec as <-; destruct H as [H|[]]; discriminate. }
    destruct m; try (apply pair_equal_spec in E as [_ <-]; destruct H; fail); cbn [common] in Ec; try discriminate.
    + exfalso. destruct p; try (apply pair_equal_spec in E as [_ <-]; destruct H; fail). destruct room; apply pair_equal_spec in E as [_ <-]; [destruct H as [H|[H|[]]]; discriminate|destruct H].
    + destruct p as [|opts|opts i u|opts i u]; try (apply pair_equal_spec in E as [_ <-]; destruct H; fail). unfold begin in E.
      destruct private_keys as [|k0 ks]; apply pair_equal_spec in E as [_ <-]; [destruct H as [H|[]]; discriminate|].
      destruct H as [H|[]]. injection H as <- <- <- <- <- <-. cbn [sinv] in I. destruct I as (_ & I1 & ops1 & ops2 & es & -> & B & T & _).
      split; [eauto 8|]. split; [exact I1|]. exists opts, ops1, ops2, es, i. split; [reflexivity|]. split; [exact B|]. split; [exact T|]. split; [reflexivity|].
      unfold unpublished. destruct (mget _ opts) as [w|]; [|split; discriminate]. destruct (beq w (lit "false")) eqn:Eb.
      * apply beq_eq in Eb. subst w. split; auto.
      * split; [discriminate|]. intros X. injection X as ->. rewrite beq_refl in Eb. discriminate.
  - destruct p; apply pair_equal_spec in E as [_ <-]; destruct H.
  - exfalso. destruct p as [|opts|opts i u|opts i u]; try (apply pair_equal_spec in E as [_ <-]; destruct H; fail).
    assert (K : forall q, check sid (fst (fst q)) (snd (fst q)) (snd q) = (c, o) -> False).
    { intros q X. apply check_out in X as [(_ & _ & _ & ->)|[(_ & _ & _ & ->)|(_ & _ & ->)]]; [destruct H as [H|[]]; discriminate|destruct H as [H|[]]; discriminate|destruct H]. }
    unfold on_tunnel in E. destruct e as [t l|t|t|t| |]; try (apply pair_equal_spec in E as [_ <-]; destruct H; fail).
    + exact (K (opts, nput t l i, u) E).
    + exact (K (opts, i, sadd t u) E).
Qed.
Print Assumptions C110_begins_with_these.

Definition opts1 : list mapping := [(lit "inbound.quantity", lit "2"); (lit "outbound.quantity", lit "1")].
Definition setup1 : list cop :=
  [create opts1; CReady; CTunnel (InBuilt 11 (lease_of 11)); CTunnel (OutBuilt 21); CTunnel (InGone 11); CTunnel (InBuilt 13 (lease_of 13)); CTunnel (InBuilt 12 (lease_of 12))].
Example C110_ex : exists cfg a,
  ex_run (Setup Inactive) (setup1 ++ [lease_set [[5]]])
  = (Active a, [[AskPool cfg; Reply (RpSessionStatus 7 SsCreated)]; []; []; []; []; []; [Reply (RpRequestVariableLeaseSet 7 [lease_of 12; lease_of 13])];
                [Begin [1] [4; 4] [5] [lease_of 12; lease_of 13] [21] true]])
  /\ (pc_in cfg, pc_in_hops cfg, pc_out cfg, pc_out_hops cfg) = (2, 2, 1, 2).
Proof. eexists _, _. split; vm_compute; reflexivity. Qed.

(** ** What a client does not get *)
(** The tunnels are counted only when one has been built: with one too many of them, the session
    waits on when the last of those goes, although all it asked for is there. *)
Theorem C110_ready_refuted : exists ops opts ins outs os, ex_run (Setup Inactive) ops = (Setup (BuildingTunnels opts ins outs), os)
  /\ complete opts ins outs = true /\ ins <> [] /\ ~ In SRequested (steppings (concat os)).
Proof.
  eexists [create [(lit "inbound.quantity", lit "1"); (lit "outbound.quantity", lit "1")]; CReady; CTunnel (InBuilt 11 (lease_of 11)); CTunnel (InBuilt 12 (lease_of 12));
     CTunnel (OutBuilt 21); CTunnel (InGone 11)], _, _, _, _.
  split; [vm_compute; reflexivity|]. split; [reflexivity|]. split; [discriminate|]. vm_compute. intros [X|[]]; discriminate.
Qed.
Print Assumptions C110_ready_refuted.

(** A host lookup made before the session is active is never answered. *)
Theorem C110_early_lookup_refuted : forall sid book did written p s r t k now room st v,
  cstep sid book did written (Setup p) (CMsg (MHostLookup s r t k) now room st v) = (Setup p, []).
Proof. reflexivity. Qed.
Print Assumptions C110_early_lookup_refuted.

(** The destination that begins need not be the one the session was created for. *)
Theorem C110_destination_refuted : exists ops a os key ls priv ins outs unp,
  ex_run (Setup Inactive) (create opts1 :: ops) = (Active a, os) /\ In (Begin key ls priv ins outs unp) (concat os) /\ key <> d_hash (dst 1).
Proof.
  eexists (tl setup1 ++ [CMsg (MCreateLeaseSet2 7 [2] [4; 4] [[5]]) 5 true NotFound []]), _, _, _, _, _, _, _, _.
  split; [vm_compute; reflexivity|]. split; [vm_compute; auto 10|]. discriminate.
Qed.
Print Assumptions C110_destination_refuted.

(** * C111: messages *)
(** What the client sends to one destination is sent or dropped in that order, and what is left
    waits, provided that the destination's word about lease sets is in order. *)
Theorem C111_in_order : forall sid book did written d ops a os,
  crun sid book did written (Active fresh) ops = (Active a, os) ->
  in_order d false (flat_map (hears book did) ops) = true ->
  dealt d os ++ waiting book did d ops = given book did d ops.
Proof.
  intros sid book did written d ops a os R O. pose proof (messages_order _ _ _ _ d _ _ _ R O) as M.
  unfold waiting. pose proof (active_at _ _ _ _ _ _ _ R d) as At. rewrite <- At. exact M.
Qed.
Print Assumptions C111_in_order.
(** That word is in order, whatever happens to the session's own destination. *)
Theorem C111_with_its_destination : forall ddid tunnels dops dd douts sid book did written d ops a os,
  drun ddid (d_new tunnels) dops = Some (dd, douts) ->
  crun sid book did written (Active fresh) ops = (Active a, os) ->
  flat_map (hears book did) ops = flat_map said (combine dops douts) ->
  in_order d false (flat_map (hears book did) ops) = true /\ dealt d os ++ waiting book did d ops = given book did d ops.
Proof.
  intros ddid tunnels dops dd douts sid book did written d ops a os D R H.
  assert (O : in_order d false (flat_map (hears book did) ops) = true).
  { rewrite in_order_ok, H. refine (said_run ddid d dops _ _ _ false _ D _); [|discriminate]. intros r. exists unknown. apply rel_unknown. }
  split; [exact O|]. eapply C111_in_order; eauto.
Qed.
Print Assumptions C111_with_its_destination.
(** If moreover every lookup is one that the session's messages started and succeeds, none is lost. *)
Theorem C111_nothing_lost : forall sid book did written d ops a os,
  crun sid book did written (Active fresh) ops = (Active a, os) ->
  in_order d false (flat_map (hears book did) ops) = true -> own book did d false ops = true ->
  passed_on d os ++ waiting book did d ops = given book did d ops.
Proof.
  intros sid book did written d ops a os R O W. rewrite <- (C111_in_order sid book did written d ops a os R O). f_equal. symmetry. apply dealt_passed.
  refine (no_losses sid book did written d ops fresh a os false false R _ _ O W); [intros X; exfalso; apply X; reflexivity|discriminate].
Qed.
Print Assumptions C111_nothing_lost.
(** At its end a session drops what waits. *)
Theorem C111_the_rest_is_dropped : forall sid book did written d ops a os op c o,
  crun sid book did written (Active fresh) ops = (Active a, os) -> ends op = true ->
  cstep sid book did written (Active a) op = (c, o) -> c = Over /\ dealt d [o] = waiting book did d ops /\ passed_on d [o] = [].
Proof.
  intros sid book did written d ops a os op c o R En E. pose proof (active_wf _ _ _ _ _ _ _ R) as W. pose proof (active_at _ _ _ _ _ _ _ R d) as At.
  assert (Wd : wait_of a d = waiting book did d ops) by (unfold waiting; rewrite <- At; reflexivity).
  assert (P : forall u, flat_map (fun o => match o with SendTo d' x => if d' =? d then [x] else [] | _ => [] end) (leave u) = []).
  { intros u. unfold leave. rewrite !flat_map_app, !flat_map_map_nil by reflexivity. rewrite !app_nil_r. induction (a_conns u) as [|[k l] m IH]; auto.
    cbn [flat_map]. rewrite flat_map_app, IH, flat_map_map_nil by reflexivity. reflexivity. }
  destruct op as [m now room st value| | |e|l'|x value|x|l'|k v|]; try discriminate; [| |].
  - cbn [cstep active_step] in E. apply pair_equal_spec in E as [<- <-]. split; [reflexivity|]. rewrite leave_dealt by auto. split; [exact Wd|]. unfold passed_on. cbn [concat]. rewrite app_nil_r. apply P.
  - destruct l'; [|discriminate]. cbn [cstep active_step] in E. apply pair_equal_spec in E as [<- <-]. split; [reflexivity|].
    change (dealt d [Panic :: leave a]) with (dealt d [leave a]). rewrite leave_dealt by auto. split; [exact Wd|]. unfold passed_on. cbn [concat]. rewrite app_nil_r. cbn [flat_map app]. apply P.
  - cbn [cstep active_step] in E. apply pair_equal_spec in E as [<- <-]. split; [reflexivity|]. rewrite leave_dealt by auto. split; [exact Wd|]. unfold passed_on. cbn [concat]. rewrite app_nil_r. apply P.
Qed.
Print Assumptions C111_the_rest_is_dropped.
(** The client is handed all messages that arrive for it, in order and numbered. *)
Theorem C111_handed_over : forall sid book did written ops a os,
  crun sid book did written (Active fresh) ops = (Active a, os) -> handed os = numbered sid 0 (arrived ops).
Proof. intros sid book did written ops a os R. now apply handed_all in R. Qed.
Print Assumptions C111_handed_over.

Definition ops111 : list cop := [send 9 [1] NotFound; send 8 [7] NotFound; CMessages [[3]; [4]]; send 9 [2] Pending; CFound 9 []; send 9 [3] Found; CNotFound 8; CMessages [[5]]].
Example C111_ex : exists dd a,
  let dops := [Query 1000 9; Query 1000 8; Query 1001 9; Result 1500 9 (Some (ls_of 9 0 [(4, 500)])) []; Query 1501 9; Result 1600 8 None []] in
  let douts := [[Lookup 9; Status NotFound]; [Lookup 8; Status NotFound]; [Status Pending]; [LeaseSetFound 9]; [Status Found]; [LeaseSetNotFound 8]] in
  drun toy_id (d_new [7]) dops = Some (dd, douts)
  /\ ex_run (Active fresh) ops111 = (Active a, [[]; []; [Reply (RpMessagePayload 7 0 [3]); Reply (RpMessagePayload 7 1 [4])]; []; [SendTo 9 [1]; SendTo 9 [2]]; [SendTo 9 [3]]; [Lost 8 [7]]; [Reply (RpMessagePayload 7 2 [5])]])
  /\ flat_map (hears true be_val) ops111 = flat_map said (combine dops douts) /\ own true be_val 9 false ops111 = true.
Proof. eexists _, _. cbv zeta. split; [vm_compute; reflexivity|]. split; [vm_compute; reflexivity|]. split; reflexivity. Qed.

(** A message can be lost although the lookup of its destination succeeds: if it was a host lookup
    that started it, or the destination itself because a lease set had expired. *)
Theorem C111_lookup_not_own_refuted : exists dops dd douts ops a os,
  drun toy_id (d_new [7]) dops = Some (dd, douts) /\ ex_run (Active fresh) ops = (Active a, os)
  /\ flat_map (hears true be_val) ops = flat_map said (combine dops douts)
  /\ In (Lost 9 [1]) (concat os) /\ forallb (fun op => match op with CNotFound _ => false | _ => true end) ops = true.
Proof.
  eexists [Query 1000 9; Query 1001 9; Result 1500 9 (Some (ls_of 9 0 [(4, 500)])) []], _, _, [look 1 9 NotFound []; send 9 [1] Pending; CFound 9 [9; 9]], _, _.
  split; [vm_compute; reflexivity|]. split; [vm_compute; reflexivity|]. split; [reflexivity|]. split; [cbn; auto|reflexivity].
Qed.
Print Assumptions C111_lookup_not_own_refuted.

(** * C112: host lookups *)
(** Each lookup is answered, dropped or still held: none is answered twice or without being asked. *)
Theorem C112_each_once : forall sid book did written ops a os,
  crun sid book did written (Active fresh) ops = (Active a, os) ->
  Permutation (lookups book did ops) (answered os ++ forgotten os ++ held a).
Proof. intros. eapply lookups_kept; eauto. Qed.
Print Assumptions C112_each_once.
(** What is held when the session ends is dropped. *)
Theorem C112_held_at_the_end : forall sid book did written ops a os op c o,
  crun sid book did written (Active fresh) ops = (Active a, os) -> ends op = true ->
  cstep sid book did written (Active a) op = (c, o) -> Permutation (lookups book did ops) (answered os ++ forgotten (os ++ [o])).
Proof.
  intros sid book did written ops a os op c o R En E. rewrite (C112_each_once _ _ _ _ _ _ _ R), forgotten_app. do 2 apply Permutation_app_head.
  destruct op as [m now room st value| | |e|l'|x value|x|l'|k v|]; try discriminate; [| |].
  - cbn [cstep active_step] in E. apply pair_equal_spec in E as [_ <-]. rewrite leave_forgot. reflexivity.
  - destruct l'; [|discriminate]. cbn [cstep active_step] in E. apply pair_equal_spec in E as [_ <-]. change (forgotten [Panic :: leave a]) with (forgotten [leave a]). rewrite leave_forgot. reflexivity.
  - cbn [cstep active_step] in E. apply pair_equal_spec in E as [_ <-]. rewrite leave_forgot. reflexivity.
Qed.
Print Assumptions C112_held_at_the_end.
(** A lookup by hash for which the lease set has to be looked for is answered when that ends, with
    the destination found. *)
Theorem C112_by_hash : forall sid book did written ops op mid a os s r d v0 v,
  crun sid book did written (Active fresh) (ops ++ op :: mid) = (Active a, os) -> request_of book did op = ByHash s r d NotFound v0 ->
  in_order d false (flat_map (hears book did) (ops ++ op :: mid)) = true ->
  forallb (fun x => match x with CFound d' _ | CNotFound d' => negb (d' =? d) | _ => true end) mid = true ->
  snd (cstep sid book did written (Active a) (CFound d v)) = [Reply (RpHostReply s r (HrSuccess v))]
  /\ snd (cstep sid book did written (Active a) (CNotFound d)) = [Reply (RpHostReply s r HrFailure)].
Proof.
  intros sid book did written ops op mid a os s r d v0 v R Q O F.
  destruct (hash_lookup_state sid book did written ops op mid a os s r d v0 R Q O) as [G1 G2].
  { clear - F. induction mid as [|x mid IH]; auto. cbn [forallb existsb] in *. apply andb_true_iff in F as [F1 F2]. rewrite IH by auto. rewrite orb_false_r.
    destruct x; auto; now apply negb_true_iff. }
  cbn [cstep active_step]. unfold on_found, on_not_found. rewrite G1, G2. split; reflexivity.
Qed.
Print Assumptions C112_by_hash.
(** A lookup by hash of a lease set that is there is answered at once. *)
Theorem C112_at_once : forall sid did written a s r t h now room v,
  cstep sid true did written (Active a) (CMsg (MHostLookup s r t (Hash h)) now room Found v) = (Active a, [Reply (RpHostReply s r (HrSuccess v))]).
Proof. reflexivity. Qed.
Print Assumptions C112_at_once.
(** A lookup by name is put to the address book and answered with its answer. *)
Theorem C112_by_name : forall sid did written ops a os s r t name now room st v0 mid a' os',
  crun sid true did written (Active fresh) ops = (Active a, os) ->
  let op := CMsg (MHostLookup s r t (HostName name)) now room st v0 in
  exists key, snd (cstep sid true did written (Active a) op) = [AskBook key name]
    /\ forall v, crun sid true did written (Active a) (op :: mid) = (Active a', os') ->
       forallb (fun x => match x with CAnswer k _ => negb (k =? key) | _ => true end) mid = true ->
       snd (cstep sid true did written (Active a') (CAnswer key v))
       = [Reply (RpHostReply s r (match v with Some x => HrSuccess x | None => HrFailure end))].
Proof.
  intros sid did written ops a os s r t name now room st v0 mid a' os' R op. exists (a_next a). split; [reflexivity|]. intros v R2 F.
  apply run_cons in R2 as (a1 & o & os2 & E1 & E2 & ->).
  pose proof (active_wf _ _ _ _ _ _ _ R) as W. assert (W1 : wf a1) by (eapply step_wf; eauto).
  assert (G1 : nget (a_next a) (a_futs a1) = Some (s, r)).
  { cbn [cstep] in E1. unfold op in E1. cbn [active_step lift on_active_message common] in E1. injection E1 as <- <-. cbn [a_futs u_futs]. apply nget_nput_same. }
  assert (G2 : nget (a_next a) (a_futs a') = Some (s, r)).
  { eapply futs_stay; eauto. clear - F. induction mid as [|x mid IH]; auto. cbn [forallb existsb] in *. apply andb_true_iff in F as [F1 F2]. rewrite IH by auto. rewrite orb_false_r.
    destruct x; auto; now apply negb_true_iff. }
  cbn [cstep active_step]. unfold on_answer. rewrite G2. reflexivity.
Qed.
Print Assumptions C112_by_name.

Definition ops112 : list cop := [look 1 9 NotFound []; look_name 2 (lit "a.i2p"); send 9 [1] Pending; look 3 8 Found [8; 8]].
Example C112_ex : exists a, ex_run (Active fresh) ops112 = (Active a, [[]; [AskBook 0 (lit "a.i2p")]; [Lost 9 [1]]; [Reply (RpHostReply 7 3 (HrSuccess [8; 8]))]])
  /\ in_order 9 false (flat_map (hears true be_val) ops112) = true /\ held a = [(7, 1); (7, 2)]
  /\ snd (ex_run (Active a) [CFound 9 [9; 9]; CAnswer 0 (Some [6])]) = [[Reply (RpHostReply 7 1 (HrSuccess [9; 9]))]; [Reply (RpHostReply 7 2 (HrSuccess [6]))]].
Proof. eexists. split; [vm_compute; reflexivity|]. split; [reflexivity|]. split; reflexivity. Qed.

(** Two lookups of one destination, the second while the first is under way: the second is not
    answered, although the lookup succeeds. *)
Theorem C112_second_unanswered_refuted : exists dops dd douts ops a os,
  drun toy_id (d_new [7]) dops = Some (dd, douts) /\ ex_run (Active fresh) ops = (Active a, os)
  /\ flat_map (hears true be_val) ops = flat_map said (combine dops douts)
  /\ lookups true be_val ops = [(7, 1); (7, 2)] /\ answered os = [(7, 1)] /\ held a = [].
Proof.
  eexists [Query 1000 9; Query 1001 9; Result 1500 9 (Some (ls_of 9 0 [(4, 500)])) []], _, _, [look 1 9 NotFound []; look 2 9 Pending []; CFound 9 [9; 9]], _, _.
  split; [vm_compute; reflexivity|]. split; [vm_compute; reflexivity|]. split; [reflexivity|]. split; [reflexivity|]. split; reflexivity.
Qed.
Print Assumptions C112_second_unanswered_refuted.

(** * C113: connections of an I2CP server *)
(** The n-th client that is let in gets the session id n, modulo 2^16. *)
Theorem C113_ids : forall book did written ops s os, srun book did written s_new ops = (s, os) ->
  greeted os = map (fun i => (N.of_nat i, (N.of_nat i + 1) mod 2 ^ 16)) (seq 0 (length (greeted os))).
Proof.
  intros book did written ops s os R. destruct (ids_run book did written ops s_new s os 0 R eq_refl eq_refl) as (n & _ & H). cbn [ids seq map app] in H.
  rewrite <- H. unfold ids. now rewrite map_length, seq_length.
Qed.
Print Assumptions C113_ids.
(** A client that says anything but the protocol's byte changes nothing. *)
Theorem C113_other_protocols : forall book did written s byte, byte <> 42 -> sstep book did written s (SConnect byte) = (s, [SRefuse]).
Proof. intros. cbn [sstep]. apply N.eqb_neq in H. rewrite H. destruct (negb _); reflexivity. Qed.
Print Assumptions C113_other_protocols.
(** As long as the server is up, each client sees what it would see if it were alone. *)
Theorem C113_as_if_alone : forall book did written ops s os s1 k sid ops2 s2 os2,
  srun book did written s_new ops = (s, os) -> sstep book did written s (SConnect 42) = (s1, [SGreet k sid]) ->
  srun book did written s1 ops2 = (s2, os2) -> existsb (existsb (fun x => match x with Down => true | _ => false end)) os2 = false ->
  exists c osk, crun sid book did written (Setup Inactive) (ops_of k ops2) = (c, osk) /\ nget k (s_conns s2) = Some (sid, c) /\ outs_of k os2 = concat osk.
Proof.
  intros book did written ops s os s1 k sid ops2 s2 os2 R E R2 D.
  assert (Sd : sorted (nkeys (s_conns s))).
  { clear - R. assert (G : forall ops s s' os, srun book did written s ops = (s', os) -> sorted (nkeys (s_conns s)) -> sorted (nkeys (s_conns s'))).
    { clear. induction ops as [|op ops IH]; intros s s' os E Sd; cbn [srun] in E; [injection E as <- <-; auto|].
      destruct (sstep book did written s op) as [s1 o] eqn:E1. destruct (srun book did written s1 ops) as [s2 os2] eqn:E2. injection E as <- <-. eapply IH; eauto.
      destruct op as [b|j x]; cbn [sstep] in E1.
      - destruct (negb _); [injection E1 as <- <-; auto|]. destruct (b =? 42); apply pair_equal_spec in E1 as [<- <-]; auto. now apply nput_Sorted.
      - destruct (nget j (s_conns s)) as [[sj cj]|]; [|injection E1 as <- <-; auto]. destruct (cstep _ _ _ _ _ _) as [c1 oc]. cbv zeta in E1.
        destruct (_ && _); apply pair_equal_spec in E1 as [<- <-]; cbn [s_conns]; [apply only_sorted|]; now apply nput_Sorted. }
    eapply G; eauto. constructor. }
  cbn [sstep] in E. destruct (negb _); [discriminate|]. cbn [N.eqb Pos.eqb] in E. apply pair_equal_spec in E as [<- E]. assert (X : s_count s = k /\ s_next s = sid) by (split; congruence). destruct X as [<- <-].
  refine (conn_run book did written ops2 _ s2 os2 (s_count s) (s_next s) (Setup Inactive) R2 _ _ _ _).
  - now apply nput_Sorted.
  - apply nget_nput_same.
  - cbn [s_count]. lia.
  - left. exact D.
Qed.
Print Assumptions C113_as_if_alone.
(** The server goes down only because of a client being set up: one that gives a lease set without
    a key, or that wanted no inbound tunnels. *)
Theorem C113_down_why : forall book did written s op s' o, sstep book did written s op = (s', o) -> In Down o ->
  exists k x sid p c oc, op = SConn k x /\ nget k (s_conns s) = Some (sid, Setup p) /\ cstep sid book did written (Setup p) x = (c, oc)
    /\ ((exists n key ls now room st v opts ins outs, x = CMsg (MCreateLeaseSet2 n key ls []) now room st v /\ p = AwaitingLeaseSet opts ins outs)
        \/ (exists e opts ins outs, x = CTunnel e /\ p = BuildingTunnels opts ins outs /\ pc_in (pool_config opts) = 0)).
Proof.
  intros book did written s op s' o E H. assert (N0 : forall k l, ~ In Down (map (SOut k) l)) by (intros k l X; apply in_map_iff in X as (y & X & _); discriminate).
  destruct op as [b|k x]; cbn [sstep] in E.
  - exfalso. destruct (negb _); [apply pair_equal_spec in E as [_ <-]; destruct H as [H|[]]; discriminate|]. destruct (b =? 42); apply pair_equal_spec in E as [_ <-]; destruct H as [H|[]]; discriminate.
  - destruct (nget k (s_conns s)) as [[sid c0]|] eqn:G; [|apply pair_equal_spec in E as [_ <-]; destruct H]. destruct (cstep sid book did written c0 x) as [c1 oc] eqn:Ec. cbv zeta in E.
    destruct (existsb _ oc && _) eqn:Ed; [|apply pair_equal_spec in E as [_ <-]; exfalso; eapply N0; eauto].
    apply andb_true_iff in Ed as [E1 E2]. destruct c0 as [p|a|]; try discriminate. exists k, x, sid, p, c1, oc. split; [auto|]. split; [auto|]. split; [auto|].
    apply existsb_exists in E1 as (y & Hy & Ey). destruct y; try discriminate. eapply panic_setup; eauto.
Qed.
Print Assumptions C113_down_why.

Definition ops113 : list sop := [SConnect 42; SConnect 7; SConnect 42; SConn 1 (create opts1); SConn 0 (create opts1); SConn 1 CReady].
Example C113_ex : exists s os, srun true be_val id_name s_new ops113 = (s, os) /\ greeted os = [(0, 1); (1, 2)] /\ s_up s = true
  /\ outs_of 1 os = snd (cstep 2 true be_val id_name (Setup Inactive) (create opts1)) /\ length (outs_of 0 os) = 2%nat.
Proof. eexists _, _. split; [vm_compute; reflexivity|]. split; [reflexivity|]. split; [reflexivity|]. split; vm_compute; reflexivity. Qed.

(** One client can end the server for all: after a lease set without a key, which is a message the
    server accepts, clients being set up are gone and no other is let in. *)
Definition hostile : list sop := map (SConn 1) (setup1 ++ [lease_set []]).
Theorem C113_one_client_refuted :
  (forall e session ls x, session < 65536 -> (forall r, parse_ls e (ls ++ r) = Some (x, r)) ->
     i2cp_parse e (fst (lease_set_frame session ls [])) (snd (lease_set_frame session ls [])) = Some (MCreateLeaseSet2 session (d_hash (h_dest (ls_header' x))) ls []))
  /\ exists s os, srun true be_val id_name s_new ([SConnect 42; SConnect 42; SConn 0 (create opts1)] ++ hostile) = (s, os)
     /\ s_up s = false /\ nget 0 (s_conns s) = None
     /\ snd (sstep true be_val id_name s (SConnect 42)) = [SRefuse] /\ snd (sstep true be_val id_name s (SConn 0 (create opts1))) = [].
Proof.
  split.
  - intros e session ls x L P. apply C46_requests_decoded, rq_lease_set; auto. cbn. lia.
  - eexists _, _. split; [vm_compute; reflexivity|]. split; [reflexivity|]. split; [reflexivity|]. split; reflexivity.
Qed.
Print Assumptions C113_one_client_refuted.
(** ... and so does an option of a client that asks for no inbound tunnels. *)
Theorem C113_no_inbound_refuted : exists s os,
  srun true be_val id_name s_new ([SConnect 42; SConnect 42] ++ map (SConn 0) [create [(lit "inbound.quantity", lit "0"); (lit "outbound.quantity", lit "1")]; CReady; CTunnel (OutBuilt 21)]) = (s, os)
  /\ s_up s = false /\ In Down (concat os).
Proof. eexists _, _. split; [vm_compute; reflexivity|]. split; [reflexivity|]. vm_compute. auto 10. Qed.
Print Assumptions C113_no_inbound_refuted.
(** Ids are used again when 2^16 clients have been let in, and the 65535th gets the id that stands
    for no session. *)
Theorem C113_ids_repeat_refuted : exists ops s os, srun true be_val id_name s_new ops = (s, os)
  /\ In (65534, 65535) (greeted os) /\ In (0, 1) (greeted os) /\ In (65536, 1) (greeted os).
Proof.
  assert (L : forall n s, s_up s = true -> length (greeted (snd (srun true be_val id_name s (repeat (SConnect 42) n)))) = n).
  { induction n as [|n IH]; intros s U; [reflexivity|]. cbn [repeat srun]. destruct (sstep true be_val id_name s (SConnect 42)) as [s1 o] eqn:E.
    cbn [sstep] in E. rewrite U in E. cbn [negb N.eqb Pos.eqb] in E. apply pair_equal_spec in E as [<- <-].
    match goal with |- context [srun _ _ _ ?t _] => specialize (IH t eq_refl); destruct (srun true be_val id_name t (repeat (SConnect 42) n)) as [s2 os] end.
    cbn [snd] in *. unfold greeted in *. cbn [concat app flat_map length]. now rewrite IH. }
  specialize (L (N.to_nat 65537) s_new eq_refl). destruct (srun true be_val id_name s_new (repeat (SConnect 42) (N.to_nat 65537))) as [s os] eqn:E. cbn [snd] in L.
  exists (repeat (SConnect 42) (N.to_nat 65537)), s, os. split; [exact E|]. pose proof (C113_ids _ _ _ _ _ _ E) as G. rewrite L in G.
  assert (M : forall i, i < 65537 -> In (i, (i + 1) mod 2 ^ 16) (greeted os)).
  { intros i Hi. rewrite G. apply in_map_iff. exists (N.to_nat i). rewrite N2Nat.id. split; [reflexivity|]. apply in_seq. lia. }
  split; [exact (M 65534 eq_refl)|]. split; [exact (M 0 eq_refl)|exact (M 65536 eq_refl)].
Qed.
Print Assumptions C113_ids_repeat_refuted.
