(** Properties C107-C109: an active SAMv3 session. *)
From Coq Require Import Ascii String.
From Coq Require Import List NArith PeanoNat Bool Lia.
From Verif Require Import ListUtil Bytes NMap EncModel PrimModel I2cpModel SamModel RpathModel DestModel DestSpec DestProofs DestProofs2 SamSessModel SamSessSpec SamSessProofs SamSessProofs2 SamSessProofs3.
From Verif Require DestProps.
Import ListNotations.
Local Open Scope list_scope.
Open Scope N_scope.

Lemma fresh me dest stream book d : at_ (x_new me dest stream book) d = no_wait. Proof. reflexivity. Qed.

(** ** C107: what comes of a request *)

(** What comes out of a request or an event is told from the history of the destination it
    concerns alone: for other destinations, and for anything else the session does, it makes no
    difference.  The session never panics. *)
Theorem C107_per_destination : forall did me dest stream book ops op,
  exists s os s' o, run did (x_new me dest stream book) ops = Some (s, os) /\ step did s op = Fine s' o
  /\ (op <> XEnd ->
      let fn := futs_run book did true ([], 0) ops in
      o = expect me dest stream book did (ctl_run true ops) (fst fn) (snd fn)
            (fun d => wait_run me stream did d true no_wait ops) op).
Proof.
  intros did me dest stream book ops op. destruct (run_facts did ops (x_new me dest stream book)) as (s & os & R & (B1 & B2 & B3 & B4) & C & F & A).
  destruct (step_facts did s op) as (s' & o & S1 & _ & _ & _ & _ & O).
  exists s, os, s', o. do 2 (split; [assumption|]). intros Ne. cbv zeta.
  change (x_futs (x_new me dest stream book), x_next (x_new me dest stream book)) with (@nil (N * bytes), 0) in F.
  cbn [x_new x_me x_dest x_stream x_book x_ctl] in *. rewrite <- F, <- C. cbn [fst snd].
  rewrite O by (destruct op; reflexivity || congruence). rewrite B1, B2, B3, B4.
  assert (X : forall d, wait_run me stream did d true no_wait ops = at_ s d) by (intros d; rewrite A, fresh; reflexivity).
  destruct op; cbn [expect]; rewrite ?X; reflexivity.
Qed.
Print Assumptions C107_per_destination.

(** Every socket a client brings is, from then on, either waiting for the lease set of the
    destination it asked for or has been parted with: as many times as it was brought. *)
Theorem C107_one_fate : forall did me dest stream book ops s os k,
  run did (x_new me dest stream book) ops = Some (s, os) ->
  let count := count_occ N.eq_dec in
  (count (waiting_socks s) k + count (flat_map parted (concat os)) k = count (flat_map brought ops) k)%nat
  /\ (In k (waiting_socks s) <-> exists d, In k (map fst (ws (wait_run me stream did d true no_wait ops)))).
Proof.
  intros did me dest stream book ops s os k R. destruct (run_socks did k ops (x_new me dest stream book) s os (Sorted.SSorted_nil _) R) as [Sd C]. cbv zeta. split; [exact C|].
  rewrite (waits_where s k Sd). destruct (run_facts did ops (x_new me dest stream book)) as (s2 & os2 & R2 & _ & _ & _ & A). rewrite R in R2. injection R2 as <- <-.
  split; intros (d & H); exists d; specialize (A d); cbn [x_new x_me x_stream x_ctl] in A; rewrite fresh in A; congruence.
Qed.
Print Assumptions C107_one_fate.

(** "The client of a CONNECT that waits for a lease set is answered": it is not if in the meantime
    another stream to the same destination is opened; its socket is then closed with no answer.
    The destination can give such answers. *)
Theorem C107_refuted_other_stream_opens :
  (exists d, drun DestProps.toy_id (d_new [7])
     [Clove 1000 (DestProps.ls_of 9 0 [(4, 500)]); Query 2000 9; Query 700000 9] = Some (d, [[]; [Status Found]; [Lookup 9; Status NotFound]]))
  /\ forall did me dest book, me <> 9 -> option_map snd (run did (x_new me dest true book)
       [XConnect 1 9 0 Found; XConnect 2 9 0 NotFound; XOpened 9 true; XFound 9 []]) = Some [[Open 1 9 0]; []; [XShut 2]; []].
Proof.
  split; [eexists; vm_compute; reflexivity|]. intros did me dest book H.
  assert (E : (9 =? me) = false) by (apply N.eqb_neq; congruence).
  cbn [run step lift]. unfold on_connect at 1. cbn [x_new x_stream x_me negb]. rewrite E. cbn [create_stream lift run].
  unfold on_connect. cbn [w_xout x_new x_stream x_me negb]. rewrite E. reflexivity.
Qed.
Print Assumptions C107_refuted_other_stream_opens.

Example C107_ex : option_map snd (run be_val (x_new 1 [] true false)
  [XConnect 1 9 0 NotFound; XConnect 2 9 5 Pending; XConnect 3 8 0 Pending; XConnect 4 1 0 Found; XAccept 5; XFound 9 []; XNotFound 8; XOpened 9 true]) =
  Some [[]; []; []; [CantReach 4]; [Listen 5]; [Open 1 9 0; Open 2 9 5]; [CantReach 3]; []].
Proof. vm_compute. reflexivity. Qed.

(** ** C108: datagrams that are sent *)

(** If the destination answers in order (see [C108_with_its_destination]), the datagrams to a remote are sent or
    dropped in the order in which the client handed them over, each once; the others wait. *)
Theorem C108_in_order : forall did me dest stream book d ops s os,
  run did (x_new me dest stream book) ops = Some (s, os) -> orderly d false ops = true ->
  settled d os ++ wd (wait_run me stream did d true no_wait ops) = offered d ops.
Proof.
  intros did me dest stream book d ops s os R Or. pose proof (run_settled did d ops (x_new me dest stream book) s os false (Sorted.SSorted_nil _) R Or (fun _ => eq_refl)) as C.
  destruct (run_facts did ops (x_new me dest stream book)) as (s2 & os2 & R2 & _ & _ & _ & A). rewrite R in R2. injection R2 as <- <-.
  rewrite A in C. exact C.
Qed.
Print Assumptions C108_in_order.

(** A session for datagrams drops none unless its lookup fails or the session ends. *)
Theorem C108_nothing_lost : forall did me dest book d ops s os,
  run did (x_new me dest false book) ops = Some (s, os) -> orderly d false ops = true -> existsb (gives_up d) ops = false ->
  sent d os ++ wd (wait_run me false did d true no_wait ops) = offered d ops.
Proof.
  intros did me dest book d ops s os R Or G. rewrite (run_sent did d ops _ s os R eq_refl G). eapply C108_in_order; eauto.
Qed.
Print Assumptions C108_nothing_lost.

(** The session's own destination answers in order, whatever happens to it.  So, if what the
    session heard is what its destination said, its datagrams are in order. *)
Theorem C108_with_its_destination : forall did tunnels dops dd douts did' me dest book d ops s os,
  drun did (d_new tunnels) dops = Some (dd, douts) ->
  run did' (x_new me dest false book) ops = Some (s, os) ->
  flat_map (told did') ops = flat_map said (combine dops douts) ->
  settled d os ++ wd (wait_run me false did' d true no_wait ops) = offered d ops.
Proof.
  intros did tunnels dops dd douts did' me dest book d ops s os D R H. eapply C108_in_order; eauto.
  apply (heard did' d ops false false); auto. rewrite H. refine (said_run did d dops _ _ _ false _ D _); [|discriminate].
  intros r. exists unknown. apply rel_unknown.
Qed.
Print Assumptions C108_with_its_destination.

Definition ops108 : list xop := [XDatagram 9 [1] NotFound; XDatagram 8 [7] NotFound; XDatagram 9 [2] Pending; XFound 9 []; XDatagram 9 [3] Found; XNotFound 8].
Example C108_ex : exists dd s,
  let dops := [Query 1000 9; Query 1000 8; Query 1001 9; Result 1500 9 (Some (DestProps.ls_of 9 0 [(4, 500)])) []; Query 1501 9; Result 1600 8 None []] in
  let douts := [[Lookup 9; Status NotFound]; [Lookup 8; Status NotFound]; [Status Pending]; [LeaseSetFound 9]; [Status Found]; [LeaseSetNotFound 8]] in
  drun DestProps.toy_id (d_new [7]) dops = Some (dd, douts)
  /\ run be_val (x_new 1 [] false false) ops108 = Some (s, [[]; []; []; [SendTo 9 [1]; SendTo 9 [2]]; [SendTo 9 [3]]; [Dropped 8 [7]]])
  /\ flat_map (told be_val) ops108 = flat_map said (combine dops douts) /\ orderly 9 false ops108 = true /\ existsb (gives_up 9) ops108 = false.
Proof. eexists _, _. cbv zeta. split; [vm_compute; reflexivity|]. split; [vm_compute; reflexivity|]. split; [reflexivity|]. split; reflexivity. Qed.

(** ** C109: name lookups *)
(** nothing that ends the lookup of [d] or starts another *)
Definition leaves_name (did : bytes -> N) (d : N) (op : xop) : bool :=
  match op with
  | XFound d' _ | XNotFound d' => negb (d' =? d)
  | XName name _ _ => match kind_of did name with IsB32 d' => negb (d' =? d) | _ => true end
  | XClosed | XEnd => false
  | _ => true
  end.
Lemma leaves_keep did me stream d n ops : forall w, wname w = Some n -> forallb (leaves_name did d) ops = true ->
  wname (wait_run me stream did d true w ops) = Some n /\ ctl_run true ops = true.
Proof.
  induction ops as [|op ops IH]; intros w W H; auto. cbn [forallb] in H. apply andb_true_iff in H as [H1 H2]. cbn [wait_run ctl_run].
  assert (K : ctl_step true op = true) by (destruct op; auto; discriminate). rewrite K. apply IH; auto.
  destruct op as [k d' o st|k|k|d' x st|name st value|d' value|d'|d' ob|d'|key v| |]; cbn [wait_step leaves_name] in *; auto; try discriminate.
  - destruct (_ && _); auto. destruct st; auto.
  - destruct (_ && _); auto. destruct st; auto.
  - destruct (kind_of did name); auto. apply negb_true_iff in H1. destruct st; auto; rewrite H1, andb_false_r; auto.
  - apply negb_true_iff in H1. now rewrite H1.
  - apply negb_true_iff in H1. now rewrite H1.
  - destruct ob; auto. destruct (d' =? d); auto.
  - destruct (d' =? d); auto.
Qed.
Lemma wait_run_app did me stream d a b : forall c w, wait_run me stream did d c w (a ++ b) = wait_run me stream did d (ctl_run c a) (wait_run me stream did d c w a) b.
Proof. induction a as [|x a IH]; intros c w; auto. cbn. apply IH. Qed.
Lemma ctl_run_app a b : forall c, ctl_run c (a ++ b) = ctl_run (ctl_run c a) b.
Proof. induction a as [|x a IH]; intros c; auto. cbn. apply IH. Qed.
Lemma futs_run_app did book a b : forall c f, futs_run book did c f (a ++ b) = futs_run book did (ctl_run c a) (futs_run book did c f a) b.
Proof. induction a as [|x a IH]; intros c f; auto. cbn. apply IH. Qed.

(** A lookup of a .b32.i2p address whose lease set is not there is answered when the lookup of the
    lease set ends, unless the client asks for the same destination again before that or hangs up. *)
Theorem C109_answered : forall did me dest stream book before name st v0 d between,
  ctl_run true before = true -> kind_of did name = IsB32 d -> st <> Found -> forallb (leaves_name did d) between = true ->
  exists s os, run did (x_new me dest stream book) (before ++ XName name st v0 :: between) = Some (s, os)
  /\ (forall v s' o, step did s (XFound d v) = Fine s' o -> filter (fun x => match x with Say _ => true | _ => false end) o = [Say (reply_ok name v)])
  /\ (forall s' o, step did s (XNotFound d) = Fine s' o -> filter (fun x => match x with Say _ => true | _ => false end) o = [Say (reply_not_found name)]).
Proof.
  intros did me dest stream book before name st v0 d between C K Ns L. set (ops := before ++ XName name st v0 :: between).
  assert (W : wname (wait_run me stream did d true no_wait ops) = Some name /\ ctl_run true ops = true).
  { unfold ops. rewrite wait_run_app, ctl_run_app, C. cbn [wait_run ctl_run ctl_step]. apply leaves_keep; auto.
    cbn [wait_step]. rewrite K. destruct st; [congruence| |]; rewrite N.eqb_refl; reflexivity. }
  destruct W as [W Cx].
  assert (Fl : forall A (f : A -> xout) l, (forall a, match f a with Say _ => False | _ => True end) ->
    filter (fun x => match x with Say _ => true | _ => false end) (map f l) = []).
  { intros A f l H. induction l as [|a l IH]; auto. cbn. specialize (H a). destruct (f a); tauto. }
  assert (Fr : forall d n, filter (fun x => match x with Say _ => true | _ => false end) (repeat (Forget d) n) = [])
    by (intros d0 n; induction n; auto).
  destruct (C107_per_destination did me dest stream book ops (XFound d [])) as (s & os & _ & _ & R & _).
  exists s, os. split; [exact R|]. split.
  - intros v s' o H. destruct (C107_per_destination did me dest stream book ops (XFound d v)) as (s2 & os2 & s3 & o3 & R2 & H2 & E).
    rewrite R in R2. injection R2 as <- <-. rewrite H in H2. injection H2 as <- <-. rewrite E by discriminate. cbv zeta. cbn [expect].
    rewrite W, Cx, !filter_app, !Fl by (intros; exact I). reflexivity.
  - intros s' o H. destruct (C107_per_destination did me dest stream book ops (XNotFound d)) as (s2 & os2 & s3 & o3 & R2 & H2 & E).
    rewrite R in R2. injection R2 as <- <-. rewrite H in H2. injection H2 as <- <-. rewrite E by discriminate. cbv zeta. cbn [expect].
    rewrite W, Cx, !filter_app, !Fl, Fr by (intros; exact I). reflexivity.
Qed.
Print Assumptions C109_answered.

(** A host name is asked of the address book, and its answer goes to the client under that name,
    whatever else the client looks up in the meantime. *)
Theorem C109_host_names : forall did me dest stream before name st v0 between,
  ctl_run true (before ++ XName name st v0 :: between) = true -> kind_of did name = IsHost ->
  exists key s1 os1 s2, run did (x_new me dest stream true) before = Some (s1, os1) /\ step did s1 (XName name st v0) = Fine s2 [AskBook key name]
  /\ (forallb (fun op => match op with XAnswer k _ => negb (k =? key) | _ => true end) between = true ->
      forall v s os s' o, run did (x_new me dest stream true) (before ++ XName name st v0 :: between) = Some (s, os) ->
        step did s (XAnswer key v) = Fine s' o ->
        o = [Say (match v with Some x => reply_ok name x | None => reply_not_found name end)]).
Proof.
  intros did me dest stream before name st v0 between C K. rewrite ctl_run_app in C. cbn [ctl_run ctl_step] in C.
  assert (Cb : ctl_run true before = true).
  { destruct (ctl_run true before); auto. exfalso. clear - C. revert C. generalize between. intros l. induction l as [|[] l IH]; cbn; auto; discriminate. }
  assert (Nt : forallb (fun op => match op with XEnd => false | _ => true end) between = true).
  { rewrite Cb in C. clear - C. assert (F : forall l, ctl_run false l = false) by (induction l as [|[] l IH]; auto).
    induction between as [|op l IH]; auto. destruct op; cbn [ctl_run ctl_step] in C; rewrite ?F in C; try discriminate; cbn; auto. }
  destruct (C107_per_destination did me dest stream true before (XName name st v0)) as (s1 & os1 & s2 & o & R1 & H1 & E1).
  cbv zeta in E1. specialize (E1 ltac:(discriminate)). cbn [expect] in E1. rewrite Cb, K in E1. cbn [negb] in E1.
  exists (snd (futs_run true did true ([], 0) before)), s1, os1, s2. split; [exact R1|]. split; [now rewrite H1, E1|].
  intros A v s os s' o2 R H. destruct (C107_per_destination did me dest stream true (before ++ XName name st v0 :: between) (XAnswer (snd (futs_run true did true ([], 0) before)) v)) as (s3 & os3 & s4 & o4 & R3 & H3 & E3).
  rewrite R in R3. injection R3 as <- <-. rewrite H in H3. injection H3 as <- <-. rewrite E3 by discriminate. cbv zeta. cbn [expect].
  rewrite futs_run_app, ctl_run_app. cbn [ctl_run ctl_step]. rewrite C, Cb. cbn [futs_run ctl_step futs_step]. rewrite K. cbn [andb].
  destruct (futs_run true did true ([], 0) before) as [f next]. cbn [fst snd] in *.
  rewrite (futs_keep true did next name); [reflexivity| |lia|].
  - now rewrite nget_nput_same.
  - clear - A Nt. induction between as [|op l IH]; auto. cbn [forallb] in *. apply andb_true_iff in A as [A1 A2]. apply andb_true_iff in Nt as [N1 N2].
    rewrite (IH N2 A2), andb_true_r. destruct op; auto.
Qed.
Print Assumptions C109_host_names.

(** "Every lookup is answered": a second lookup of the same destination while the first is under
    way takes its place, and the client gets one answer for the two, whatever comes later. *)
Definition twice : bytes := lit "aaaaaaaa.b32.i2p".
Lemma quiet_no_say did ops : forall s s' os, run did s ops = Some (s', os) -> x_futs s = [] -> (forall k, nget k (x_names s) = None) ->
  forallb (fun op => match op with XName _ _ _ => false | _ => true end) ops = true ->
  forall l, ~ In (Say l) (concat os).
Proof.
  induction ops as [|op ops IH]; intros s s' os R F Nn Q l; cbn [run] in R.
  - injection R as <- <-. auto.
  - destruct (step did s op) as [|s1 o] eqn:S1; [discriminate|]. destruct (run did s1 ops) as [[s2 os']|] eqn:R1; [|discriminate]. injection R as <- <-.
    cbn [forallb] in Q. apply andb_true_iff in Q as [Q1 Q2].
    destruct (step_facts did s op) as (s1' & o' & S1' & (B1 & B2 & B3 & B4) & _ & Fu & A & O). rewrite S1 in S1'. injection S1' as <- <-.
    assert (Fs : x_futs s1 = []).
    { pose proof (f_equal fst Fu) as X. cbn [fst] in X. rewrite X, F. destruct op; try reflexivity. discriminate Q1. }
    assert (Ns : forall k, nget k (x_names s1) = None).
    { intros k. change (nget k (x_names s1)) with (wname (at_ s1 k)). rewrite A.
      assert (W : wname (at_ s k) = None) by apply Nn.
      destruct op as [k0 d' o0 st|k0|k0|d' x st|name st value|d' value|d'|d' ob|d'|key v| |]; cbn [wait_step] in *; auto; try discriminate Q1.
      - destruct (_ && _); auto. destruct st; auto.
      - destruct (_ && _); auto. destruct st; auto.
      - destruct (d' =? k); auto.
      - destruct (d' =? k); auto.
      - destruct ob; auto. destruct (d' =? k); auto.
      - destruct (d' =? k); auto. }
    cbn [concat]. intros H. apply in_app_or in H as [H|H]; [|eapply (IH s1); eauto].
    destruct op as [k0 d' o0 st|k0|k0|d' x st|name st value|d' value|d'|d' ob|d'|key v| |]; cbn [ends] in O; try (specialize (O eq_refl); cbn [expect] in O); try discriminate Q1.
    + subst o. repeat match type of H with In _ (if ?b then _ else _) => destruct b end; try destruct st; cbn in H; intuition discriminate.
    + subst o. destruct (x_stream s); cbn in H; intuition discriminate.
    + subst o. destruct (x_stream s); cbn in H; intuition discriminate.
    + subst o. destruct (x_stream s); [|destruct st]; cbn in H; intuition discriminate.
    + subst o. cbn [at_ wname ws wd] in H. rewrite Nn, app_nil_r in H. apply in_app_or in H as [H|H]; apply in_map_iff in H as (y & H & _); discriminate.
    + subst o. cbn [at_ wname ws wd tries] in H. rewrite Nn, app_nil_r in H.
      apply in_app_or in H as [H|H]; [apply in_map_iff in H as (y & H & _); discriminate|].
      apply in_app_or in H as [H|H]; [apply repeat_spec in H; discriminate|apply in_map_iff in H as (y & H & _); discriminate].
    + destruct ob; subst o; [|destruct H]. apply in_app_or in H as [H|H]; apply in_map_iff in H as (y & H & _); discriminate.
    + subst o. apply in_app_or in H as [H|H]; apply in_map_iff in H as (y & H & _); discriminate.
    + subst o. rewrite F in H. destruct H.
    + subst o. destruct (x_ctl s); cbn in H; intuition discriminate.
    + cbn [step] in S1. injection S1 as <- <-. apply in_flat_map in H as ([a p] & _ & H). unfold drop_entry in H. cbn [fst snd] in H. rewrite shuts in H.
      apply in_app_or in H as [H|H]; [apply in_map_iff in H as (y & H & _); discriminate|].
      destruct (p_dgrams p); [apply in_map_iff in H as (y & H & _); discriminate|destruct H].
Qed.
Theorem C109_refuted_lookup_forgotten : forall me dest book v later s os l,
  forallb (fun op => match op with XName _ _ _ => false | _ => true end) later = true ->
  run be_val (x_new me dest false book) (XName twice NotFound [] :: XName twice Pending [] :: XFound 0 v :: later) = Some (s, os) ->
  exists os', os = [] :: [] :: [Say (reply_ok twice v)] :: os' /\ ~ In (Say l) (concat os').
Proof.
  intros me dest book v later s os l Q R. apply run_step in R as (s1 & o1 & os1 & S1 & R & ->).
  apply run_step in R as (s2 & o2 & os2 & S2 & R & ->). apply run_step in R as (s3 & o3 & os3 & S3 & R & ->).
  vm_compute in S1. injection S1 as <- <-. vm_compute in S2. injection S2 as <- <-.
  cbn [step on_found lift nget x_out x_names w_xnames ndel N.eqb app] in S3. 
  injection S3 as <- <-. exists os3. split; [reflexivity|].
  apply (quiet_no_say be_val later _ s os3 R); reflexivity || exact Q.
Qed.
Print Assumptions C109_refuted_lookup_forgotten.

Example C109_ex : kind_of be_val twice = IsB32 0 /\ kind_of be_val (lit "a.i2p") = IsHost
  /\ option_map snd (run be_val (x_new 1 (lit "me") true true)
       [XName (lit "ME") Found []; XName (lit "a.i2p") Found []; XName (lit "b.i2p") Found []; XName twice NotFound []; XName (lit "x") Found [];
        XAnswer 1 (Some (lit "B")); XNotFound 0; XAnswer 0 None]) =
     Some [[Say (reply_ok (lit "ME") (lit "me"))]; [AskBook 0 (lit "a.i2p")]; [AskBook 1 (lit "b.i2p")]; []; [Say (reply_invalid (lit "x"))];
           [Say (reply_ok (lit "b.i2p") (lit "B"))]; [Say (reply_not_found twice)]; [Say (reply_not_found (lit "a.i2p"))]].
Proof. split; [vm_compute; reflexivity|]. split; vm_compute; reflexivity. Qed.
