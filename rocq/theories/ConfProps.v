(** C135, C136: which settings the router is started with. *)
From Coq Require Import List NArith Bool Lia.
From Verif Require Import ConfModel ConfSpec.
Import ListNotations.
Open Scope N_scope.

(** * C135: the command line and the file *)

Lemma is_true_iff : forall o, is_true o = true <-> o = Some true.
Proof. intros [[|]|]; cbn; split; congruence. Qed.
Lemma not_true : forall o, o <> Some true -> is_true o = false.
Proof. intros [[|]|]; cbn; congruence. Qed.

(** A setting given on the command line is used, whatever the file says: unless a "disable" flag
    switches it off, and provided the file has the section it belongs to. *)
Theorem C135_command_line_wins : forall a s q v, from_clap a -> section s q -> ~ disabled a q ->
  given a q = Some v -> value (merge_set a s) q = Some v.
Proof.
  intros a s q v hc hs hd h.
  destruct q; cbn [given value disabled section merge_set floodfill insecure allow_local metrics caps
    net_id log reseeding http exploratory transit fwd rui] in *.
  - destruct (a_floodfill a) as [[|]|]; cbn in h |- *; congruence.
  - destruct (a_insecure a) as [[|]|]; cbn in h |- *; congruence.
  - destruct (a_allow_local a) as [[|]|]; cbn in h |- *; congruence.
  - unfold from_clap in hc. destruct (a_metrics_port a) as [p|]; cbn in h; [|discriminate].
    destruct (a_disable_metrics a) as [[|]|]; [congruence | exact h | congruence].
  - destruct (a_caps a); cbn in h |- *; congruence.
  - destruct (a_net_id a); cbn in h |- *; congruence.
  - destruct (a_log a); cbn in h |- *; congruence.
  - unfold merge_reseed. rewrite (not_true _ hd).
    destruct (a_hosts a) as [l|]; cbn in h; [|discriminate].
    destruct (a_threshold a), (reseeding s); cbn; congruence.
  - unfold merge_reseed. rewrite (not_true _ hd).
    destruct (a_threshold a) as [n|]; cbn in h; [|discriminate].
    destruct (a_hosts a), (reseeding s); cbn; congruence.
  - destruct (http s) as [p|]; [|congruence]. cbn [merge_http].
    destruct (a_proxy_port a) as [n|]; cbn in h |- *; congruence.
  - destruct (http s) as [p|]; [|congruence]. cbn [merge_http].
    destruct (a_proxy_host a) as [n|]; cbn in h |- *; congruence.
  - unfold merge_expl, an in *. destruct (exploratory s); cbn [get x_il x_ic x_ol x_oc];
      destruct (x_il (a_expl a)); cbn in *; congruence.
  - unfold merge_expl, an in *. destruct (exploratory s); cbn [get x_il x_ic x_ol x_oc];
      destruct (x_ic (a_expl a)); cbn in *; congruence.
  - unfold merge_expl, an in *. destruct (exploratory s); cbn [get x_il x_ic x_ol x_oc];
      destruct (x_ol (a_expl a)); cbn in *; congruence.
  - unfold merge_expl, an in *. destruct (exploratory s); cbn [get x_il x_ic x_ol x_oc];
      destruct (x_oc (a_expl a)); cbn in *; congruence.
  - unfold merge_transit. rewrite (not_true _ hd). destruct (a_max_transit a); cbn in *; congruence.
  - destruct (fwd s); [|congruence]. cbn. destruct (a_upnp_name a); cbn in *; congruence.
  - destruct (rui s); [|congruence]. cbn. rewrite (not_true _ hd). destruct (a_theme a); cbn in *; congruence.
  - destruct (rui s); [|congruence]. cbn. rewrite (not_true _ hd). destruct (a_refresh a); cbn in *; congruence.
Qed.
Print Assumptions C135_command_line_wins.

(** What is not given on the command line is as the file says.  (When the command line names
    reseed hosts and the file has no section for reseeding, the threshold is not absent but 25.) *)
Theorem C135_file_otherwise : forall a s q, ~ disabled a q -> given a q = None ->
  (q = ReseedThreshold -> reseeding s = None -> a_hosts a = None) ->
  value (merge_set a s) q = value s q.
Proof.
  intros a s q hd h hr.
  destruct q; cbn [given value disabled merge_set floodfill insecure allow_local metrics caps
    net_id log reseeding http exploratory transit fwd rui] in *.
  - destruct (a_floodfill a) as [[|]|]; cbn in h |- *; congruence.
  - destruct (a_insecure a) as [[|]|]; cbn in h |- *; congruence.
  - destruct (a_allow_local a) as [[|]|]; cbn in h |- *; congruence.
  - destruct (a_metrics_port a); cbn in h; [discriminate|].
    destruct (a_disable_metrics a) as [[|]|]; congruence.
  - destruct (a_caps a); cbn in h |- *; congruence.
  - destruct (a_net_id a); cbn in h |- *; congruence.
  - destruct (a_log a); cbn in h |- *; congruence.
  - unfold merge_reseed. rewrite (not_true _ hd).
    destruct (a_hosts a) as [l|]; cbn in h; [discriminate|].
    destruct (a_threshold a), (reseeding s); cbn; congruence.
  - unfold merge_reseed. rewrite (not_true _ hd).
    destruct (a_threshold a) as [n|]; cbn in h; [discriminate|].
    destruct (reseeding s) as [r|].
    + destruct (a_hosts a); reflexivity.
    + rewrite hr by reflexivity. reflexivity.
  - destruct (a_proxy_port a) as [n|] eqn:e; cbn in h; [discriminate|]. unfold merge_http. rewrite e.
    destruct (http s); reflexivity.
  - destruct (a_proxy_host a) as [n|] eqn:e; cbn in h; [discriminate|]. unfold merge_http. rewrite e.
    destruct (http s); [reflexivity|]. destruct (a_proxy_port a); reflexivity.
  - unfold merge_expl, an in *. destruct (exploratory s); cbn [get x_il x_ic x_ol x_oc];
      destruct (x_il (a_expl a)); cbn in *; congruence.
  - unfold merge_expl, an in *. destruct (exploratory s); cbn [get x_il x_ic x_ol x_oc];
      destruct (x_ic (a_expl a)); cbn in *; congruence.
  - unfold merge_expl, an in *. destruct (exploratory s); cbn [get x_il x_ic x_ol x_oc];
      destruct (x_ol (a_expl a)); cbn in *; congruence.
  - unfold merge_expl, an in *. destruct (exploratory s); cbn [get x_il x_ic x_ol x_oc];
      destruct (x_oc (a_expl a)); cbn in *; congruence.
  - unfold merge_transit. rewrite (not_true _ hd). destruct (a_max_transit a); cbn in *; congruence.
  - destruct (fwd s); [|reflexivity]. cbn. destruct (a_upnp_name a); cbn in *; congruence.
  - destruct (rui s); [|reflexivity]. cbn. rewrite (not_true _ hd). destruct (a_theme a); cbn in *; congruence.
  - destruct (rui s); [|reflexivity]. cbn. rewrite (not_true _ hd). destruct (a_refresh a); cbn in *; congruence.
Qed.
Print Assumptions C135_file_otherwise.

(** What is disabled is off, even if it is also given. *)
Theorem C135_disabled : forall a s q, disabled a q -> value (merge_set a s) q = None.
Proof.
  intros a s q hd.
  destruct q; cbn [disabled] in hd; try contradiction; cbn [value merge_set metrics reseeding transit rui];
    unfold merge_reseed, merge_transit, merge_ui; rewrite hd; try reflexivity;
    destruct (rui s); reflexivity.
Qed.
Print Assumptions C135_disabled.

(** Port forwarding: a protocol is used if the file enables it and the command line does not
    disable it.  The command line cannot enable one. *)
Theorem C135_forwarding : forall a s,
  (exists f, fwd (merge_set a s) = Some f /\ f_upnp f = true) <->
    (exists f, fwd s = Some f /\ f_upnp f = true) /\ a_disable_upnp a <> Some true.
Proof.
  intros a s. cbn [merge_set fwd]. unfold merge_fwd. destruct (fwd s) as [f|].
  - split.
    + intros (g & e & h). injection e as <-. cbn [f_upnp] in h.
      destruct (is_true (a_disable_upnp a)) eqn:ed; [discriminate|]. split; [eauto|].
      intros e. rewrite e in ed. discriminate ed.
    + intros ((g & e & h) & hn). injection e as <-. eexists. split; [reflexivity|]. cbn [f_upnp].
      rewrite (not_true _ hn). exact h.
  - split; [intros (g & e & _); discriminate e | intros ((g & e & _) & _); discriminate e].
Qed.
Print Assumptions C135_forwarding.
Theorem C135_forwarding_nat_pmp : forall a s,
  (exists f, fwd (merge_set a s) = Some f /\ f_nat_pmp f = true) <->
    (exists f, fwd s = Some f /\ f_nat_pmp f = true) /\ a_disable_nat_pmp a <> Some true.
Proof.
  intros a s. cbn [merge_set fwd]. unfold merge_fwd. destruct (fwd s) as [f|].
  - split.
    + intros (g & e & h). injection e as <-. cbn [f_nat_pmp] in h.
      destruct (is_true (a_disable_nat_pmp a)) eqn:ed; [discriminate|]. split; [eauto|].
      intros e. rewrite e in ed. discriminate ed.
    + intros ((g & e & h) & hn). injection e as <-. eexists. split; [reflexivity|]. cbn [f_nat_pmp].
      rewrite (not_true _ hn). exact h.
  - split; [intros (g & e & _); discriminate e | intros ((g & e & _) & _); discriminate e].
Qed.
Print Assumptions C135_forwarding_nat_pmp.

(** Transports, SAM, I2CP, tunnels and the address book are the file's. *)
Theorem C135_rest_kept : forall c a,
  c_ntcp2 (merge c a) = c_ntcp2 c /\ c_ssu2 (merge c a) = c_ssu2 c /\ c_sam (merge c a) = c_sam c /\
  c_i2cp (merge c a) = c_i2cp c /\ c_clients (merge c a) = c_clients c /\
  c_servers (merge c a) = c_servers c /\ book (c_set (merge c a)) = book (c_set c).
Proof. intros c a. repeat split. Qed.
Print Assumptions C135_rest_kept.

(** Giving the same arguments again changes nothing. *)
Theorem C135_idempotent : forall c a, merge (merge c a) a = merge c a.
Proof.
  intros c a. unfold merge. cbn [c_set c_ntcp2 c_ssu2 c_sam c_i2cp c_clients c_servers]. f_equal.
  unfold merge_set. cbn [floodfill insecure allow_local metrics caps net_id log reseeding http
    exploratory transit fwd rui book]. f_equal.
  - destruct (is_true (a_floodfill a)); reflexivity.
  - destruct (is_true (a_insecure a)); reflexivity.
  - destruct (is_true (a_allow_local a)); reflexivity.
  - destruct (a_disable_metrics a) as [[|]|], (a_metrics_port a); reflexivity.
  - destruct (a_caps a); reflexivity.
  - destruct (a_net_id a); reflexivity.
  - destruct (a_log a); reflexivity.
  - unfold merge_reseed. destruct (is_true (a_disable_reseed a)); [reflexivity|].
    destruct (a_hosts a), (a_threshold a), (reseeding (c_set c)) as [[] |]; reflexivity.
  - unfold merge_http. destruct (http (c_set c)) as [[]|], (a_proxy_port a), (a_proxy_host a); reflexivity.
  - unfold merge_expl. destruct (a_expl a) as [g1 g2 g3 g4].
    destruct (exploratory (c_set c)) as [[x1 x2 x3 x4]|]; cbn; destruct g1, g2, g3, g4; reflexivity.
  - unfold merge_transit. destruct (is_true (a_disable_transit a)); [reflexivity|].
    destruct (a_max_transit a); reflexivity.
  - unfold merge_fwd. destruct (fwd (c_set c)) as [[]|]; [|reflexivity]. cbn.
    destruct (is_true (a_disable_nat_pmp a)), (is_true (a_disable_upnp a)), (a_upnp_name a); reflexivity.
  - unfold merge_ui. destruct (rui (c_set c)) as [[]|]; [|reflexivity].
    destruct (is_true (a_disable_ui a)) eqn:e; [reflexivity|]. cbn.
    destruct (a_theme a), (a_refresh a); reflexivity.
Qed.
Print Assumptions C135_idempotent.

(** Without the file's section some settings of the command line are dropped silently: a port for
    the HTTP proxy alone (although the help says that its host has a default), a host alone, the
    name for UPnP, the theme and the refresh interval. *)
Theorem C135_dropped_refuted : forall a s q v, ~ section s q -> given a q = Some v ->
  (a_proxy_port a = None \/ a_proxy_host a = None) -> value (merge_set a s) q = None.
Proof.
  intros a s q v hs _ hp.
  assert (hn : forall A (o : option A), ~ o <> None -> o = None).
  { intros A [x|] h; [exfalso; apply h; discriminate | reflexivity]. }
  destruct q; cbn [section] in hs; try (exfalso; apply hs; exact I); apply hn in hs;
    cbn [value merge_set http fwd rui]; unfold merge_http, merge_fwd, merge_ui; rewrite hs; try reflexivity;
    (destruct hp as [-> | ->]; [reflexivity | destruct (a_proxy_port a); reflexivity]).
Qed.
Print Assumptions C135_dropped_refuted.

Definition no_args : args :=
  mkArgs (Some false) (Some false) (Some false) (Some false) None None None None None None (Some false)
    None None (mkExpl None None None None) None (Some false) (Some false) (Some false) None None None (Some false).
Definition some_args : args :=
  mkArgs (Some true) (Some false) (Some false) (Some false) (Some 9000) None None None (Some [[1]]) (Some 40) (Some false)
    (Some 8080) None (mkExpl (Some 3) None None None) (Some 10) (Some true) (Some true) (Some false) None None (Some 9) (Some false).
Definition default0 : file := default [1; 2] [88; 82] [101].
Example C135_example :
  let s := merge_set some_args (e_set default0) in
  value s Floodfill = Some (AB true) /\ value s MetricsPort = Some (AN 9000) /\
  value s ReseedHosts = Some (AL [[1]]) /\ value s ReseedThreshold = Some (AN 40) /\
  value s ProxyPort = Some (AN 8080) /\ value s ProxyHost = Some (AS localhost) /\
  value s InLen = Some (AN 3) /\ value s MaxTransit = None /\ value s UiRefresh = Some (AN 9) /\
  value s Caps = Some (AS [88; 82]).
Proof. repeat split. Qed.
Example C135_dropped_example :
  let s := mkSettings false false false None None None None None None None None None None None in
  given some_args ProxyPort = Some (AN 8080) /\ value (merge_set some_args s) ProxyPort = None.
Proof. split; reflexivity. Qed.

(** * C136: what is accepted, and the first start *)

Lemma distinct_all : forall A (dec : forall a b : A, {a = b} + {a <> b}) l,
  Nat.eqb (distinct dec l) (length l) = true <-> NoDup l.
Proof.
  intros A dec l. unfold distinct. rewrite PeanoNat.Nat.eqb_eq. split.
  - induction l as [|x l IH]; intros h; [constructor|]. cbn [nodup] in h.
    destruct (in_dec dec x l) as [i|i].
    + exfalso. assert (hl : (length (nodup dec l) <= length l)%nat).
      { clear. induction l as [|y l IH]; [reflexivity|]. cbn [nodup]. destruct (in_dec dec y l); cbn; lia. }
      cbn [length] in h. lia.
    + constructor; [exact i|]. apply IH. cbn [length] in h. lia.
  - intros h. rewrite nodup_fixed_point by exact h. reflexivity.
Qed.

(** A file is refused exactly if two client tunnels have the same name or listen on the same port,
    or two server tunnels have the same name, port or file for their keys. *)
Theorem C136_tunnels_distinct : forall e,
  new e <> None <->
  (forall l, e_clients e = Some l -> NoDup (map t_name l) /\ NoDup (map t_port l)) /\
  (forall l, e_servers e = Some l -> NoDup (map s_name l) /\ NoDup (map s_port l) /\ NoDup (map s_path l)).
Proof.
  intros e.
  assert (hc : forall l, clients_ok l = true <-> NoDup (map t_name l) /\ NoDup (map t_port l)).
  { intros l. unfold clients_ok. rewrite andb_true_iff.
    pose proof (distinct_all _ str_dec (map t_name l)) as h1. rewrite map_length in h1.
    pose proof (distinct_all _ N.eq_dec (map t_port l)) as h2. rewrite map_length in h2.
    rewrite h1, h2. tauto. }
  assert (hs : forall l, servers_ok l = true <->
    NoDup (map s_name l) /\ NoDup (map s_port l) /\ NoDup (map s_path l)).
  { intros l. unfold servers_ok. rewrite !andb_true_iff.
    pose proof (distinct_all _ str_dec (map s_name l)) as h1. rewrite map_length in h1.
    pose proof (distinct_all _ N.eq_dec (map s_port l)) as h2. rewrite map_length in h2.
    pose proof (distinct_all _ str_dec (map s_path l)) as h3. rewrite map_length in h3.
    rewrite h1, h2, h3. tauto. }
  unfold new. destruct (e_clients e) as [lc|]; destruct (e_servers e) as [ls|].
  - destruct (clients_ok lc) eqn:ec; cbn [negb]; [destruct (servers_ok ls) eqn:es; cbn [negb]|].
    + apply hc in ec. apply hs in es. split; [|discriminate]. intros _.
      split; intros l h; injection h as <-; assumption.
    + split; [congruence|]. intros [_ h]. specialize (h ls eq_refl). apply hs in h. congruence.
    + split; [congruence|]. intros [h _]. specialize (h lc eq_refl). apply hc in h. congruence.
  - destruct (clients_ok lc) eqn:ec; cbn [negb].
    + apply hc in ec. split; [|discriminate]. intros _. split; intros l h; [injection h as <-; assumption | discriminate h].
    + split; [congruence|]. intros [h _]. specialize (h lc eq_refl). apply hc in h. congruence.
  - cbn [negb]. destruct (servers_ok ls) eqn:es; cbn [negb].
    + apply hs in es. split; [|discriminate]. intros _. split; intros l h; [discriminate h | injection h as <-; assumption].
    + split; [congruence|]. intros [_ h]. specialize (h ls eq_refl). apply hs in h. congruence.
  - cbn [negb]. split; [|discriminate]. intros _. split; intros l h; discriminate h.
Qed.
Print Assumptions C136_tunnels_distinct.
Example C136_example :
  new (mkFile (e_set default0) None None None None
         (Some [mkClient [1] None 6668 [2] None; mkClient [3] None 6668 [4] None]) None) = None /\
  exists c, new (mkFile (e_set default0) None None None None
         (Some [mkClient [1] None 6668 [2] None; mkClient [3] None 6669 [2] None]) None) = Some c.
Proof. split; [reflexivity | eexists; reflexivity]. Qed.

(** A file that is accepted is used as it is: its tunnels, its transports (published only if the
    file says so), the local host where no host is named. *)
Theorem C136_as_written : forall e c, new e = Some c ->
  c_set c = e_set e /\ c_clients c = or_else (e_clients e) [] /\ c_servers c = or_else (e_servers e) [] /\
  (forall p h, (exists b, c_ntcp2 c = Some (p, h, b)) <-> exists b, e_ntcp2 e = Some (p, h, b)) /\
  (forall p h, c_ntcp2 c = Some (p, h, true) <-> e_ntcp2 e = Some (p, h, Some true)) /\
  (forall p h, (exists b, c_ssu2 c = Some (p, h, b)) <-> exists b, e_ssu2 e = Some (p, h, b)) /\
  (forall p h, c_ssu2 c = Some (p, h, true) <-> e_ssu2 e = Some (p, h, Some true)) /\
  (forall t u h, c_sam c = Some (t, u, h) <-> exists o, e_sam e = Some (t, u, o) /\ h = or_else o localhost) /\
  (forall p h, c_i2cp c = Some (p, h) <-> exists o, e_i2cp e = Some (p, o) /\ h = or_else o localhost).
Proof.
  intros e c h. unfold new in h.
  destruct (negb match e_clients e with Some l => clients_ok l | None => true end); [discriminate|].
  destruct (negb match e_servers e with Some l => servers_ok l | None => true end); [discriminate|].
  injection h as <-. cbn [c_set c_clients c_servers c_ntcp2 c_ssu2 c_sam c_i2cp].
  split; [reflexivity|]. split; [reflexivity|]. split; [reflexivity|].
  split; [|split; [|split; [|split; [|split]]]].
  - intros p h. destruct (e_ntcp2 e) as [[[p' h'] [b|]]|]; split; intros [b' e']; try discriminate e';
      injection e' as <- <- <-; eauto.
  - intros p h. destruct (e_ntcp2 e) as [[[p' h'] [b|]]|]; cbn [or_else]; split; congruence.
  - intros p h. destruct (e_ssu2 e) as [[[p' h'] [b|]]|]; split; intros [b' e']; try discriminate e';
      injection e' as <- <- <-; eauto.
  - intros p h. destruct (e_ssu2 e) as [[[p' h'] [b|]]|]; cbn [or_else]; split; congruence.
  - intros t u h. destruct (e_sam e) as [[[t' u'] o]|]; split.
    + intros e'. injection e' as <- <- <-. eauto.
    + intros (o' & e' & ->). injection e' as <- <- <-. reflexivity.
    + discriminate.
    + intros (o' & e' & _). discriminate e'.
  - intros p h. destruct (e_i2cp e) as [[p' o]|]; split.
    + intros e'. injection e' as <- <-. eauto.
    + intros (o' & e' & ->). injection e' as <- <-. reflexivity.
    + discriminate.
    + intros (o' & e' & _). discriminate e'.
Qed.
Print Assumptions C136_as_written.

(** The first start uses the configuration that it writes: the next start, which reads that file,
    has the same one. *)
Theorem C136_first_start : forall url xr name, new (default url xr name) = Some (new_empty url xr name).
Proof. intros url xr name. reflexivity. Qed.
Print Assumptions C136_first_start.
Example C136_first_start_example :
  c_ntcp2 (new_empty [1] [2] [3]) = Some (25115, None, true) /\ c_ssu2 (new_empty [1] [2] [3]) = None.
Proof. split; reflexivity. Qed.
