(** Property theorems C67 - C73: the network database of a floodfill router. *)
From Coq Require Import List NArith ZArith Bool Arith Lia ZifyBool ZifyNat ZifyN.
From Verif Require Import ListUtil Bytes NMap PrimModel PrimSpec PrimProofs PrimProps I2npModel I2npSpec I2npProofs I2npProps
  KadModel KadSpec KadProofs KadProofs2 KadProofs3 KadProps RouteProofs
  FloodModel FloodSpec FloodProofs FloodProofs2 FloodProofs3 FloodProofs4.
Import ListNotations.
Open Scope N_scope.

(** ** Concrete routers and events for the examples *)
Definition toy_conf : fconf := mkFconf true 2 1000.
(** A clock, and a transport that is connected to, and can dial, everybody. *)
Definition at_time (now : N) : fenv := mkFenv now (fun k => be_val k) (fun r => r <? 100) 11 12 13 (fun _ => true) (fun _ => true) true.
(** Two lease sets of one destination, and one of another destination. *)
Definition even_ls : lease_set :=
  mkLs (mkLsh (dest_new toy (repeat 5 352) (ed_public toy [1; 2])) 600 None 1700000000 false)
       [repeat 3 32] [mkLease (repeat 8 32) 77 1700000600000; mkLease (repeat 9 32) 78 1700000600000].
Definition older_ls : lease_set :=
  mkLs (mkLsh (dest_new toy (repeat 5 352) (ed_public toy [1; 2])) 600 None 1699999900 false)
       [repeat 3 32] [mkLease (repeat 8 32) 70 1700000500000].
Definition other_ls : lease_set :=
  mkLs (mkLsh (dest_new toy (repeat 4 352) (ed_public toy [1; 3])) 600 None 1700000000 false)
       [repeat 3 32] [mkLease (repeat 6 32) 99 1700000600000].
Definition toy_key : bytes := Eval vm_compute in d_hash (h_dest (ls_header' toy_ls)).
Definition store_of_ls (priv : bytes) (l : lease_set) (reply : store_reply) : bytes := ser_store toy_key (KLeaseSet2 (ser_ls toy priv l)) reply.
Definition toy_store : bytes := Eval vm_compute in store_of_ls [1; 2] toy_ls SrNone.
Definition toy_store_token : bytes := Eval vm_compute in store_of_ls [1; 2] toy_ls (SrRouter 7 (be_bytes 32 500)).
Definition even_store : bytes := Eval vm_compute in store_of_ls [1; 2] even_ls SrNone.
Definition older_store : bytes := Eval vm_compute in store_of_ls [1; 2] older_ls SrNone.
Definition other_store : bytes := Eval vm_compute in store_of_ls [1; 3] other_ls SrNone.
Definition lookup_of (key : bytes) (t : lookup_type) (ignore : list bytes) : bytes := ser_lookup key t (LrRouter (be_bytes 32 500)) ignore.
Definition toy_lookup : bytes := Eval vm_compute in lookup_of toy_key LLeaseSet [].
Definition parsed (b : bytes) : option store_payload :=
  match parse_store toy (fun _ => None) b with Some (mkStore k p SrNone, []) => if beq k toy_key then Some p else None | _ => None end.

Lemma parsed_of priv l : ls_ok toy priv l -> hash_ok toy_key ->
  forall b, b = store_of_ls priv l SrNone -> parse_store toy (fun _ => None) b = Some (mkStore toy_key (SpLeaseSet2 (on_the_wire l)) SrNone, []).
Proof.
  intros L H b ->. rewrite <- (app_nil_r (store_of_ls _ _ _)). unfold store_of_ls. apply C25_store_lease_set_roundtrip; try assumption; [exact toy_ok|exact I].
Qed.
Lemma toy_key_ok : hash_ok toy_key.
Proof. reflexivity. Qed.
Ltac ls_ok_tac :=
  split; [intros r; apply dest_new_parses; vm_compute; reflexivity|];
  split; [vm_compute; reflexivity|]; split; [vm_compute; reflexivity|];
  split; [vm_compute; reflexivity|]; split; [split; vm_compute; repeat constructor|];
  split; [apply Forall_cons; [reflexivity|apply Forall_nil]|];
  split; [split; vm_compute; repeat constructor|];
  repeat apply Forall_cons; try apply Forall_nil; (split; [reflexivity|]); split; vm_compute; reflexivity.
Lemma even_ls_ok : ls_ok toy [1; 2] even_ls.
Proof. ls_ok_tac. Qed.
Lemma older_ls_ok : ls_ok toy [1; 2] older_ls.
Proof. ls_ok_tac. Qed.
Lemma other_ls_ok : ls_ok toy [1; 3] other_ls.
Proof. ls_ok_tac. Qed.
Lemma parse_toy : parse_store toy (fun _ => None) toy_store = Some (mkStore toy_key (SpLeaseSet2 (on_the_wire toy_ls)) SrNone, []).
Proof. apply (parsed_of [1; 2]); [exact toy_ls_ok|exact toy_key_ok|vm_compute; reflexivity]. Qed.
Lemma parse_even : parse_store toy (fun _ => None) even_store = Some (mkStore toy_key (SpLeaseSet2 (on_the_wire even_ls)) SrNone, []).
Proof. apply (parsed_of [1; 2]); [exact even_ls_ok|exact toy_key_ok|vm_compute; reflexivity]. Qed.
Lemma parse_older : parse_store toy (fun _ => None) older_store = Some (mkStore toy_key (SpLeaseSet2 (on_the_wire older_ls)) SrNone, []).
Proof. apply (parsed_of [1; 2]); [exact older_ls_ok|exact toy_key_ok|vm_compute; reflexivity]. Qed.
Lemma parse_other : parse_store toy (fun _ => None) other_store = Some (mkStore toy_key (SpLeaseSet2 (on_the_wire other_ls)) SrNone, []).
Proof. apply (parsed_of [1; 3]); [exact other_ls_ok|exact toy_key_ok|vm_compute; reflexivity]. Qed.
Lemma parse_token : parse_store toy (fun _ => None) toy_store_token =
  Some (mkStore toy_key (SpLeaseSet2 (on_the_wire toy_ls)) (SrRouter 7 (be_bytes 32 500)), []).
Proof.
  replace toy_store_token with (ser_store toy_key (KLeaseSet2 (ser_ls toy [1; 2] toy_ls)) (SrRouter 7 (be_bytes 32 500)) ++ [])
    by (rewrite app_nil_r; vm_compute; reflexivity).
  apply C25_store_lease_set_roundtrip; [exact toy_ok|exact toy_key_ok| |exact toy_ls_ok]. repeat split; reflexivity.
Qed.
Lemma toy_lookup_reads : looks_up true toy_key toy_lookup (LrRouter (be_bytes 32 500)) [].
Proof. exists []. vm_compute. reflexivity. Qed.
Lemma bytes_by (b : bytes) : forallb (fun x => x <? 256) b = true -> bytes_ok b.
Proof. intros H. apply Forall_forall. intros x Hx. rewrite forallb_forall in H. apply H in Hx. unfold byte_ok. lia. Qed.
Lemma fits_by (b : bytes) : forallb (fun x => x <? 256) b = true -> (N.of_nat (length b) <=? 65526) = true -> op_fits (FStore b).
Proof. intros H L. split; [now apply bytes_by|lia]. Qed.
Lemma toy_fits : op_fits (FStore toy_store).
Proof. apply fits_by; vm_compute; reflexivity. Qed.
Lemma token_fits : op_fits (FStore toy_store_token).
Proof. apply fits_by; vm_compute; reflexivity. Qed.
Lemma even_fits : op_fits (FStore even_store).
Proof. apply fits_by; vm_compute; reflexivity. Qed.
Lemma older_fits : op_fits (FStore older_store).
Proof. apply fits_by; vm_compute; reflexivity. Qed.
Lemma other_fits : op_fits (FStore other_store).
Proof. apply fits_by; vm_compute; reflexivity. Qed.
Lemma at_time_ok t : (t <? 1800000000000) = true -> env_ok (at_time t).
Proof. intros H. unfold env_ok, at_time. cbn [v_now v_id1 v_id2 v_id3]. change (2 ^ 32) with 4294967296. repeat split; lia. Qed.

(** ** C67: a lookup is answered with what was taken last *)
(** Whatever happened before, a lookup of a lease set or router info whose way back is open is
    answered at once, with a message good for eight seconds: with the entry taken last under the
    key (taken: a lease set that was valid when it came, or the router info of another router of
    this network at most an hour old) unless a cleanup removed it since, or else with a search
    reply.  Nothing changes. *)
Theorem C67_answered :
  forall e gunzip c ops s sent v p lease key reply ignore,
    fc_floodfill c = true -> history_ok ops -> env_ok v ->
    fruns e gunzip c (fdb_new c) ops = Some (s, sent) ->
    looks_up lease key p reply ignore ->
    exists m msg, fstep e gunzip c v s (FLookup p) = Some (s, if way_back v reply then delivered reply m else []) /\
      reads reply m = Some msg /\ timely v msg /\
      match recalls e gunzip c lease key ops with
      | Some entry => m_type msg = DatabaseStore /\
          exists r, parse_store e gunzip (m_payload msg) = Some (mkStore key entry SrNone, r)
      | None => m_type msg = DatabaseSearchReply /\
          exists sr, parse_search_reply (m_payload msg) = Some (sr, []) /\ sr_key sr = key
      end.
Proof.
  intros e gunzip c ops s sent v p lease key reply ignore FF H V R [rest P].
  pose proof (runs_remember e gunzip c FF ops s sent H R) as Rm.
  destruct (lookup_answer e gunzip c ops s v p ignore key _ reply rest lease FF Rm V P (lease_type lease)) as (m & msg & A1 & A2 & A3 & A4).
  exists m, msg. split; [|split; [exact A2|split; [exact A3|]]].
  - rewrite A1. unfold sent_back, delivered, way_back. destruct reply; reflexivity.
  - destruct (recalls e gunzip c lease key ops).
    + exact A4.
    + destruct A4 as [A4 A5]. split; [exact A4|]. rewrite A5. eexists. split; [apply search_answer_read; now apply parse_lookup_key in P|reflexivity].
Qed.
Print Assumptions C67_answered.

(** The last store wins, whoever sent it and whatever was stored before: in particular anybody
    can replace the lease set of a destination, because the key need not be the destination's. *)
Theorem C67_last_store_wins :
  forall e gunzip c ops v priv l key v' p reply ignore,
    ext_ok e -> fc_floodfill c = true -> history_ok ops -> env_ok v -> env_ok v' ->
    hash_ok key -> ls_ok e priv l -> op_fits (FStore (ser_store key (KLeaseSet2 (ser_ls e priv l)) SrNone)) ->
    valid_at (v_now v) (on_the_wire l) = true ->
    looks_up true key p reply ignore -> way_back v' reply = true ->
    answers e gunzip c (ops ++ [(v, FStore (ser_store key (KLeaseSet2 (ser_ls e priv l)) SrNone))]) v' p true key
      (SpLeaseSet2 (on_the_wire l)).
Proof.
  intros e gunzip c ops v priv l key v' p reply ignore He FF H V V' Hk L F T P W.
  apply (recall_answers e gunzip c FF _ v' p true key reply ignore); try assumption.
  - apply Forall_app. split; [exact H|]. apply Forall_cons; [|apply Forall_nil]. split; assumption.
  - rewrite recalls_app. cbn [fold_left].
    pose proof (C25_store_lease_set_roundtrip e gunzip He key priv l SrNone [] Hk I L) as Q. rewrite app_nil_r in Q.
    apply (store_recalled e gunzip c true key v _ _ _ Q); [reflexivity|reflexivity|exact T].
Qed.
Print Assumptions C67_last_store_wins.

(** A floodfill does serve a lease set that is not the looked up destination's. *)
Theorem C67_foreign_lease_set_refuted :
  ~ forall e gunzip c ops v p key l,
      ext_ok e -> fc_floodfill c = true -> history_ok ops -> env_ok v ->
      answers e gunzip c ops v p true key (SpLeaseSet2 l) -> d_hash (h_dest (ls_header' l)) = key.
Proof.
  intros H. set (ops := [(at_time 1700000100000, FStore toy_store); (at_time 1700000200000, FStore other_store)]).
  assert (HO : history_ok ops).
  { apply Forall_cons; [split; [now apply at_time_ok|exact toy_fits]|]. apply Forall_cons; [split; [now apply at_time_ok|exact other_fits]|apply Forall_nil]. }
  specialize (H toy (fun _ => None) toy_conf ops (at_time 1700000300000) toy_lookup toy_key (on_the_wire other_ls) toy_ok eq_refl HO).
  assert (X : d_hash (h_dest (ls_header' (on_the_wire other_ls))) = toy_key).
  { apply H; [now apply at_time_ok|]. apply (recall_answers toy (fun _ => None) toy_conf eq_refl ops _ _ true toy_key (LrRouter (be_bytes 32 500)) []); try assumption.
    - now apply at_time_ok.
    - exact toy_lookup_reads.
    - reflexivity.
    - unfold recalls, ops. cbn [fold_left].
      apply (store_recalled toy (fun _ => None) toy_conf true toy_key (at_time 1700000200000) _ _ _ parse_other); [reflexivity|reflexivity|vm_compute; reflexivity]. }
  assert (Y : beq (d_hash (h_dest (ls_header' (on_the_wire other_ls)))) toy_key = false) by (vm_compute; reflexivity).
  rewrite X, beq_refl in Y. discriminate Y.
Qed.
Print Assumptions C67_foreign_lease_set_refuted.

(** A floodfill does replace a lease set by an older one of the same destination. *)
Theorem C67_older_replaces_newer_refuted :
  exists c v b1 l1 v2 b2 l2 v3 p,
    parse_store toy (fun _ => None) b1 = Some (mkStore toy_key (SpLeaseSet2 l1) SrNone, []) /\
    parse_store toy (fun _ => None) b2 = Some (mkStore toy_key (SpLeaseSet2 l2) SrNone, []) /\
    h_dest (ls_header' l2) = h_dest (ls_header' l1) /\ h_published (ls_header' l2) < h_published (ls_header' l1) /\
    v_now v <= v_now v2 <= v_now v3 /\ lasts_until (v_now v3) l1 = true /\
    answers toy (fun _ => None) c [(v, FStore b1); (v2, FStore b2)] v3 p true toy_key (SpLeaseSet2 l2).
Proof.
  exists toy_conf, (at_time 1700000100000), toy_store, (on_the_wire toy_ls), (at_time 1700000200000), older_store, (on_the_wire older_ls),
    (at_time 1700000300000), toy_lookup.
  split; [exact parse_toy|]. split; [exact parse_older|]. split; [reflexivity|]. split; [reflexivity|]. split; [split; discriminate|].
  split; [vm_compute; reflexivity|].
  apply (recall_answers toy (fun _ => None) toy_conf eq_refl _ _ _ true toy_key (LrRouter (be_bytes 32 500)) []).
  - apply Forall_cons; [split; [now apply at_time_ok|exact toy_fits]|]. apply Forall_cons; [split; [now apply at_time_ok|exact older_fits]|apply Forall_nil].
  - now apply at_time_ok.
  - exact toy_lookup_reads.
  - reflexivity.
  - unfold recalls. cbn [fold_left].
    apply (store_recalled toy (fun _ => None) toy_conf true toy_key (at_time 1700000200000) _ _ _ parse_older); [reflexivity|reflexivity|vm_compute; reflexivity].
Qed.
Print Assumptions C67_older_replaces_newer_refuted.

(** A history in which a lease set is taken, and the answer to a lookup. *)
Example C67_ex :
  history_ok [(at_time 1700000100000, FStore toy_store)] /\ looks_up true toy_key toy_lookup (LrRouter (be_bytes 32 500)) [] /\
  recalls toy (fun _ => None) toy_conf true toy_key [(at_time 1700000100000, FStore toy_store)] = Some (SpLeaseSet2 (on_the_wire toy_ls)) /\
  recalls toy (fun _ => None) toy_conf true (repeat 0 32) [(at_time 1700000100000, FStore toy_store)] = None /\
  op_fits (FStore (ser_store toy_key (KLeaseSet2 (ser_ls toy [1; 3] other_ls)) SrNone)).
Proof.
  split; [apply Forall_cons; [split; [now apply at_time_ok|exact toy_fits]|apply Forall_nil]|].
  split; [exact toy_lookup_reads|]. split.
  - apply (store_recalled toy (fun _ => None) toy_conf true toy_key (at_time 1700000100000) _ _ _ parse_toy); [reflexivity|reflexivity|vm_compute; reflexivity].
  - split; [|apply fits_by; vm_compute; reflexivity].
    unfold recalls. cbn [fold_left]. unfold recall_step. cbn [snd fst]. rewrite parse_toy. reflexivity.
Qed.

(** ** C68: entries that have expired are not handed out *)
(** Part that holds: a lease set handed out was still good, with all its leases, at the last
    cleanup, or was taken since then while valid.  (Cleanups come every thirty seconds.)
    Missing: that it is good when it is handed out, that router infos are ever removed, and that
    what was acknowledged is kept as long as it is good. *)
Theorem C68_at_most_one_cleanup_late_partial :
  forall e gunzip c before vm after v p key l,
    fc_floodfill c = true -> history_ok (before ++ (vm, FMaintain) :: after) -> env_ok v ->
    answers e gunzip c (before ++ (vm, FMaintain) :: after) v p true key (SpLeaseSet2 l) ->
    lasts_until (v_now vm) l = true \/
    exists vs b reply r, In (vs, FStore b) after /\
      parse_store e gunzip b = Some (mkStore key (SpLeaseSet2 l) reply, r) /\ valid_at (v_now vs) l = true.
Proof.
  intros e gunzip c before vm after v p key l FF H V A. apply (answers_recall e gunzip c FF) in A; try assumption.
  rewrite recalls_app in A. cbn [fold_left] in A. apply recall_after in A as [A|A]; [left|now right].
  unfold recall_step in A. cbn [snd fst] in A. destruct (recalls e gunzip c true key before) as [[i|x]|]; try discriminate.
  destruct (lasts_until (v_now vm) x) eqn:E; [|discriminate]. injection A as ->. exact E.
Qed.
Print Assumptions C68_at_most_one_cleanup_late_partial.

(** A lease set that has expired is handed out until the next cleanup. *)
Theorem C68_expired_served_refuted :
  exists c v b vm l v' p,
    parse_store toy (fun _ => None) b = Some (mkStore toy_key (SpLeaseSet2 l) SrNone, []) /\
    v_now v <= v_now vm /\ v_now vm <= v_now v' < v_now vm + 30000 /\
    valid_at (v_now v') l = false /\
    answers toy (fun _ => None) c [(v, FStore b); (vm, FMaintain)] v' p true toy_key (SpLeaseSet2 l).
Proof.
  exists toy_conf, (at_time 1700000100000), even_store, (at_time 1700000600000), (on_the_wire even_ls), (at_time 1700000629999), toy_lookup.
  split; [exact parse_even|]. split; [discriminate|]. split; [split; [discriminate|reflexivity]|]. split; [vm_compute; reflexivity|].
  apply (recall_answers toy (fun _ => None) toy_conf eq_refl _ _ _ true toy_key (LrRouter (be_bytes 32 500)) []).
  - apply Forall_cons; [split; [now apply at_time_ok|exact even_fits]|]. apply Forall_cons; [split; [now apply at_time_ok|exact I]|apply Forall_nil].
  - now apply at_time_ok.
  - exact toy_lookup_reads.
  - reflexivity.
  - unfold recalls. cbn [fold_left].
    rewrite (store_recalled toy (fun _ => None) toy_conf true toy_key (at_time 1700000100000) _ _ _ parse_even); [|reflexivity|reflexivity|vm_compute; reflexivity].
    vm_compute. reflexivity.
Qed.
Print Assumptions C68_expired_served_refuted.

(** A router info once taken is handed out for ever, however many cleanups there are and however
    late it is, unless another one is stored under the key. *)
Theorem C68_router_info_forever_refuted :
  forall e gunzip c before v b key i reply r cleanups v' p reply' ignore,
    fc_floodfill c = true -> history_ok (before ++ (v, FStore b) :: cleanups) -> env_ok v' ->
    parse_store e gunzip b = Some (mkStore key (SpRouterInfo i) reply, r) -> takes c (v_now v) (SpRouterInfo i) = true ->
    Forall (fun x => snd x = FMaintain) cleanups ->
    looks_up false key p reply' ignore -> way_back v' reply' = true ->
    answers e gunzip c (before ++ (v, FStore b) :: cleanups) v' p false key (SpRouterInfo i).
Proof.
  intros e gunzip c before v b key i reply r cleanups v' p reply' ignore FF H V P T F L W.
  apply (recall_answers e gunzip c FF _ v' p false key reply' ignore); try assumption.
  rewrite recalls_app. cbn [fold_left].
  rewrite (store_recalled e gunzip c false key v b _ _ P); [|reflexivity|reflexivity|exact T]. now apply info_forever.
Qed.
Print Assumptions C68_router_info_forever_refuted.

(** A lease set is taken (and acknowledged) while valid, and forgotten by a cleanup at the same
    moment, because one of its leases has expired. *)
Theorem C68_valid_forgotten_refuted :
  exists c v b l p sr,
    parse_store toy (fun _ => None) b = Some (mkStore toy_key (SpLeaseSet2 l) SrNone, []) /\
    valid_at (v_now v) l = true /\
    refers toy (fun _ => None) c [(v, FStore b); (v, FMaintain)] v p true toy_key [] sr.
Proof.
  set (v := at_time 1700000550000). set (ops := [(v, FStore toy_store); (v, FMaintain)]).
  assert (HO : history_ok ops).
  { apply Forall_cons; [split; [now apply at_time_ok|exact toy_fits]|]. apply Forall_cons; [split; [now apply at_time_ok|exact I]|apply Forall_nil]. }
  assert (R : recalls toy (fun _ => None) toy_conf true toy_key ops = None).
  { unfold recalls, ops. cbn [fold_left].
    rewrite (store_recalled toy (fun _ => None) toy_conf true toy_key v _ _ _ parse_toy); [|reflexivity|reflexivity|vm_compute; reflexivity].
    vm_compute. reflexivity. }
  destruct (no_recall_refers toy (fun _ => None) toy_conf eq_refl ops v toy_lookup true toy_key (LrRouter (be_bytes 32 500)) []
    HO (at_time_ok 1700000550000 eq_refl) toy_lookup_reads eq_refl R) as (s & sent & _ & X).
  exists toy_conf, v, toy_store, (on_the_wire toy_ls), toy_lookup. eexists. split; [exact parse_toy|]. split; [vm_compute; reflexivity|exact X].
Qed.
Print Assumptions C68_valid_forgotten_refuted.

Definition toy_info_bytes : bytes := Eval vm_compute in match ser_rinfo toy [1; 2] toy_rinfo with Some b => b | None => [] end.
Definition toy_info_store : bytes := Eval vm_compute in ser_store (repeat 7 32) (KRouterInfo toy_info_bytes) SrNone.
(** A router info that is taken, and the case of a lease set that outlives a cleanup. *)
Example C68_ex :
  (exists i r, parse_store toy Some toy_info_store = Some (mkStore (repeat 7 32) (SpRouterInfo i) SrNone, r) /\
    takes toy_conf 1700003600000 (SpRouterInfo i) = true /\ takes toy_conf 1700003600001 (SpRouterInfo i) = false) /\
  op_fits (FStore toy_info_store) /\
  answers toy (fun _ => None) toy_conf [(at_time 1700000100000, FStore even_store); (at_time 1700000200000, FMaintain)]
    (at_time 1700000300000) toy_lookup true toy_key (SpLeaseSet2 (on_the_wire even_ls)).
Proof.
  split; [eexists _, _; split; [vm_compute; reflexivity|split; vm_compute; reflexivity]|].
  split; [apply fits_by; vm_compute; reflexivity|].
  apply (recall_answers toy (fun _ => None) toy_conf eq_refl _ _ _ true toy_key (LrRouter (be_bytes 32 500)) []).
  - apply Forall_cons; [split; [now apply at_time_ok|exact even_fits]|]. apply Forall_cons; [split; [now apply at_time_ok|exact I]|apply Forall_nil].
  - now apply at_time_ok.
  - exact toy_lookup_reads.
  - reflexivity.
  - unfold recalls. cbn [fold_left].
    rewrite (store_recalled toy (fun _ => None) toy_conf true toy_key (at_time 1700000100000) _ _ _ parse_even); [|reflexivity|reflexivity|vm_compute; reflexivity].
    vm_compute. reflexivity.
Qed.

(** ** C69: flooding ends after one hop *)
(** A store message without a reply token makes a router send nothing, to nobody. *)
Theorem C69_no_token_no_messages :
  forall e gunzip c v s b st r s' out,
    parse_store e gunzip b = Some (st, r) -> st_reply st = SrNone ->
    fstep e gunzip c v s (FStore b) = Some (s', out) -> silent out /\ fd_links s' = fd_links s.
Proof. exact no_token_silent. Qed.
Print Assumptions C69_no_token_no_messages.

(** Whatever a floodfill has been through, the store messages it sends to other routers make
    those - any router, in any state - neither send nor keep nor dial anything. *)
Theorem C69_one_hop :
  forall e gunzip c ops s sent x m msg r,
    fc_floodfill c = true -> history_ok ops ->
    fruns e gunzip c (fdb_new c) ops = Some (s, sent) -> In (ToRouter x m) sent ->
    parse_short m = Some (msg, r) -> m_type msg = DatabaseStore ->
    forall e' gunzip' c' v' there there' out,
      fstep e' gunzip' c' v' there (FStore (m_payload msg)) = Some (there', out) ->
      silent out /\ fd_links there' = fd_links there.
Proof.
  intros e gunzip c ops s sent x m msg r FF H R Hin P T e' gunzip' c' v' there there' out F.
  destruct (runs_no_token e gunzip c ops FF s sent H R) as [_ A].
  assert (A' := A x m Hin). destruct (A' msg r P T) as (key & k & Hk & E). rewrite E in F.
  destruct (parse_store e' gunzip' (ser_store key k SrNone)) as [[st rest]|] eqn:Ps.
  - apply (no_token_silent e' gunzip' c' v' there (ser_store key k SrNone) st rest); try assumption. now apply (store_none_reply e' gunzip' key k st rest).
  - cbn [fstep] in F. unfold on_store in F. rewrite Ps in F. injection F as <- <-. split; [intros y []|reflexivity].
Qed.
Print Assumptions C69_one_hop.

(** A floodfill (5) is connected, and a lease set comes with a token: the acknowledgement goes to
    router 500 and the lease set to router 5. *)
Definition flood_history : list (fenv * fop) :=
  [(at_time 1700000000000, FEstablished 5); (at_time 1700000000000, FEstablished 500); (at_time 1700000100000, FStore toy_store_token)].
Lemma token_step v s : on_store toy (fun _ => None) toy_conf v s toy_store_token =
  on_lease_store toy v s toy_key (SrRouter 7 (be_bytes 32 500)) toy_store_token (on_the_wire toy_ls).
Proof. unfold on_store. rewrite parse_token. reflexivity. Qed.
Lemma flood_run : exists s m1 m2 msg msg2 d,
  fruns toy (fun _ => None) toy_conf (fdb_new toy_conf) flood_history = Some (s, [ToRouter 500 m1; ToRouter 5 m2]) /\
  parse_short m1 = Some (msg, []) /\ m_type msg = DeliveryStatus /\ parse_delivery_status (m_payload msg) = Some (d, []) /\ ds_id d = 7 /\
  parse_short m2 = Some (msg2, []) /\ m_type msg2 = DatabaseStore.
Proof.
  eexists _, _, _, _, _, _. split.
  - unfold flood_history. cbn [fruns fstep]. unfold on_established. cbv beta iota zeta. rewrite token_step. vm_compute. reflexivity.
  - repeat split; vm_compute; reflexivity.
Qed.
Example C69_ex :
  history_ok flood_history /\
  exists s sent m msg r, fruns toy (fun _ => None) toy_conf (fdb_new toy_conf) flood_history = Some (s, sent) /\
    In (ToRouter 5 m) sent /\ parse_short m = Some (msg, r) /\ m_type msg = DatabaseStore.
Proof.
  split.
  - repeat (apply Forall_cons; [split; [now apply at_time_ok|try exact I; try exact token_fits]|]). apply Forall_nil.
  - destruct flood_run as (s & m1 & m2 & msg & msg2 & d & R & _ & _ & _ & _ & P & T).
    exists s, [ToRouter 500 m1; ToRouter 5 m2], m2, msg2, []. split; [exact R|]. split; [right; left; reflexivity|]. split; assumption.
Qed.

(** ** C70: what is acknowledged was taken, and is flooded *)
(** An entry that is not taken is not acknowledged, not flooded, and changes nothing. *)
Theorem C70_refused_entries_do_nothing :
  forall e gunzip c v s b st r,
    fc_floodfill c = true -> env_ok v -> op_fits (FStore b) ->
    parse_store e gunzip b = Some (st, r) -> takes c (v_now v) (st_payload st) = false ->
    fstep e gunzip c v s (FStore b) = Some (s, []).
Proof. exact refused_nothing. Qed.
Print Assumptions C70_refused_entries_do_nothing.

(** An entry that is taken and came with a reply token is acknowledged - a delivery status with
    the token is handed to the connection to the router or gateway named - and handed, without a
    token, to the connections to the floodfills closest to the key, at most three of those heard
    of. *)
Theorem C70_acknowledged_and_flooded :
  forall e gunzip c ops s sent v b st r gateway,
    fc_floodfill c = true -> ids_ok e c ops -> env_ok v -> op_fits (FStore b) ->
    fruns e gunzip c (fdb_new c) ops = Some (s, sent) ->
    parse_store e gunzip b = Some (st, r) -> takes c (v_now v) (st_payload st) = true ->
    ack_router (st_reply st) = Some gateway -> router_id (v_target v (st_key st)) ->
    exists s' out, fstep e gunzip c v s (FStore b) = Some (s', out) /\
      (exists m, entrusted v s s' out gateway (Expiring m (v_now v + 8000)) /\ acknowledges (st_reply st) m) /\
      exists m msg x rest fs, parse_short m = Some (msg, []) /\ m_type msg = DatabaseStore /\
        parse_store e gunzip (m_payload msg) = Some (mkStore (st_key st) (st_payload st) SrNone, rest) /\
        (forall f, In f fs -> entrusted v s s' out f (Expiring m x)) /\
        the_closest 3 (v_target v (st_key st)) (known (fd_dht s')) [] fs /\
        forall f, In f (known (fd_dht s')) -> In f (floodfills_heard_of e gunzip c (ops ++ [(v, FStore b)])).
Proof.
  intros e gunzip c ops s sent v b st r gateway FF Hid V F R P T A Rt.
  destruct (taken_sent e gunzip c v s b st r gateway FF V F P T A) as (s' & out & E1 & E2 & (m & msg & x & rest & E3 & E4 & E5 & E6)).
  assert (R' : fruns e gunzip c (fdb_new c) (ops ++ [(v, FStore b)]) = Some (s', sent ++ out)).
  { revert R E1. clear. generalize (fdb_new c). revert sent s. induction ops as [|[v0 o0] ops IH]; intros sent s s0 R E1.
    - injection R as -> <-. cbn [app fruns]. rewrite E1. now rewrite app_nil_r.
    - cbn [app fruns] in R |- *. destruct (fstep e gunzip c v0 s0 o0) as [[s1 o1]|]; [|discriminate].
      destruct (fruns e gunzip c s1 ops) as [[s2 o2]|] eqn:E; [|discriminate]. injection R as -> <-.
      rewrite (IH _ _ _ E E1). now rewrite app_assoc. }
  assert (Hid' : ids_ok e c (ops ++ [(v, FStore b)])).
  { destruct Hid as (I1 & I2 & I3). repeat split; try assumption. apply Forall_app. split; [exact I3|]. apply Forall_cons; [exact I|apply Forall_nil]. }
  destruct (runs_dht e gunzip c _ _ _ Hid' R') as (D1 & _ & D3).
  exists s', out. split; [exact E1|]. split; [exact E2|].
  destruct (closest (fd_dht s') (v_target v (st_key st)) 3) as [fs|] eqn:C.
  - exists m, msg, x, rest, fs. repeat (split; [assumption|]). split; [|exact D3].
    rewrite closest_ignore_nil in C. now apply closest_chosen.
  - exfalso. rewrite closest_ignore_nil in C. destruct (closest_with_ignore_spec (fd_dht s') (v_target v (st_key st)) 3 [] D1 Rt) as (a & rs & Q & _).
    congruence.
Qed.
Print Assumptions C70_acknowledged_and_flooded.

Example C70_ex :
  ids_ok toy toy_conf flood_history /\ env_ok (at_time 1700000100000) /\
  ack_router (SrRouter 7 (be_bytes 32 500)) = Some 500 /\
  takes toy_conf 1700000100000 (SpLeaseSet2 (on_the_wire toy_ls)) = true /\
  takes toy_conf 1700000600124 (SpLeaseSet2 (on_the_wire toy_ls)) = false /\
  exists s sent m1 m2, fruns toy (fun _ => None) toy_conf (fdb_new toy_conf) flood_history = Some (s, sent) /\
    sent = [ToRouter 500 m1; ToRouter 5 m2] /\ acknowledges (SrRouter 7 (be_bytes 32 500)) m1 /\
    floodfills_heard_of toy (fun _ => None) toy_conf flood_history = [5].
Proof.
  split.
  { split; [intros b; cbn [toy sha256]; rewrite be_val_bytes; unfold router_id; apply N.mod_lt; discriminate|].
    split; [reflexivity|]. repeat (apply Forall_cons; [try exact I; reflexivity|]). apply Forall_nil. }
  split; [now apply at_time_ok|]. split; [vm_compute; reflexivity|]. split; [vm_compute; reflexivity|]. split; [vm_compute; reflexivity|].
  destruct flood_run as (s & m1 & m2 & msg & msg2 & d & R & P & T & D & Id & _).
  exists s, [ToRouter 500 m1; ToRouter 5 m2], m1, m2. split; [exact R|]. split; [reflexivity|]. split.
  - cbn [acknowledges]. exists msg, d. repeat split; assumption.
  - unfold floodfills_heard_of, flood_history. cbn [flat_map heard_of snd fst]. rewrite parse_token. reflexivity.
Qed.

(** ** C71: where to ask next *)
(** A lookup that cannot be answered is answered with at most five of the floodfills heard of,
    none of those the asker excluded, and no other known floodfill closer to the key. *)
Theorem C71_search_reply :
  forall e gunzip c ops v p lease key reply ignore,
    fc_floodfill c = true -> history_ok ops -> ids_ok e c ops -> env_ok v ->
    looks_up lease key p reply ignore -> way_back v reply = true -> router_id (v_target v key) ->
    recalls e gunzip c lease key ops = None ->
    exists rs s sent,
      refers e gunzip c ops v p lease key ignore (mkSr (be_bytes 32 (fc_local c)) key (map (be_bytes 32) rs)) /\
      fruns e gunzip c (fdb_new c) ops = Some (s, sent) /\
      the_closest 5 (v_target v key) (known (fd_dht s)) (map be_val ignore) rs /\
      forall k, In k (known (fd_dht s)) -> In k (floodfills_heard_of e gunzip c ops).
Proof.
  intros e gunzip c ops v p lease key reply ignore FF H Hid V P W Rt R.
  destruct (no_recall_refers e gunzip c FF ops v p lease key reply ignore H V P W R) as (s & sent & Rn & X).
  destruct (runs_dht e gunzip c _ _ _ Hid Rn) as (D1 & _ & D3).
  exists (search_routers (fd_dht s) v key ignore), s, sent. split; [exact X|]. split; [exact Rn|]. split; [|exact D3].
  unfold search_routers. destruct (closest_with_ignore (fd_dht s) (v_target v key) 5 (map be_val ignore)) as [rs|] eqn:C.
  - now apply closest_chosen.
  - exfalso. destruct (closest_with_ignore_spec (fd_dht s) (v_target v key) 5 (map be_val ignore) D1 Rt) as (a & rs & Q & _). congruence.
Qed.
Print Assumptions C71_search_reply.

(** A router that asked directly and has no connection (any more) gets no answer, and is not
    dialed - though it is when it asked for an exploration. *)
Theorem C71_direct_answer_lost_refuted :
  forall e gunzip c v s p lease key h ignore,
    looks_up lease key p (LrRouter h) ignore -> v_linked v (be_val h) = false ->
    fstep e gunzip c v s (FLookup p) = Some (s, []).
Proof.
  intros e gunzip c v s p lease key h ignore [rest P] L. cbn [fstep]. unfold on_lookup_message. destruct (negb _); [reflexivity|].
  rewrite P. destruct lease; cbv iota; unfold on_lookup; destruct (bget key _) as [[raw t]|]; unfold reply_to, send_now; now rewrite L.
Qed.
Print Assumptions C71_direct_answer_lost_refuted.
Theorem C71_exploration_dials :
  forall e gunzip c ops s sent v p key h ignore rest,
    fc_floodfill c = true -> fruns e gunzip c (fdb_new c) ops = Some (s, sent) ->
    parse_lookup p = Some (mkLookup ignore key LExploration (LrRouter h), rest) ->
    nget (be_val h) (fd_links s) = None -> v_dial v (be_val h) = true ->
    exists s' m, fstep e gunzip c v s (FLookup p) = Some (s', [Dial (be_val h)]) /\
      nget (be_val h) (fd_links s') = Some (Dialing [NonExpiring m]).
Proof.
  intros e gunzip c ops s sent v p key h ignore rest FF R P L D.
  assert (T : exists t, fd_routers s = Some t).
  { revert s sent R L. induction ops as [|[v0 o0] ops IH] using rev_ind; intros s sent R L.
    - injection R as <- <-. unfold fdb_new. cbn [fd_routers]. rewrite FF. eauto.
    - apply fruns_snoc in R as (s0 & o1 & o2 & R1 & R2 & ->). cbn [fst snd] in R2.
      assert (X : exists t, fd_routers s0 = Some t).
      { clear -R1 FF. revert s0 o1 R1. induction ops as [|[v1 o1] ops IH] using rev_ind; intros s0 oo R.
        - injection R as <- <-. unfold fdb_new. cbn [fd_routers]. rewrite FF. eauto.
        - apply fruns_snoc in R as (s1 & a & b & R1 & R2 & ->). destruct (IH _ _ R1) as [t Ht]. exact (routers_kept _ _ _ _ _ _ _ _ _ R2 Ht). }
      destruct X as [t Ht]. exact (routers_kept _ _ _ _ _ _ _ _ _ R2 Ht). }
  destruct T as [t T]. cbn [fstep]. unfold on_lookup_message. rewrite FF, P. cbn [negb]. unfold on_exploration. rewrite T.
  unfold send_one. rewrite L, D. eexists _, _. split; [reflexivity|]. cbn [with_links fd_links]. rewrite nget_nput, N.eqb_refl. reflexivity.
Qed.
Print Assumptions C71_exploration_dials.

Example C71_ex :
  history_ok flood_history /\ ids_ok toy toy_conf flood_history /\
  looks_up true (repeat 0 32) (lookup_of (repeat 0 32) LLeaseSet [be_bytes 32 6]) (LrRouter (be_bytes 32 500)) [be_bytes 32 6] /\
  recalls toy (fun _ => None) toy_conf true (repeat 0 32) flood_history = None /\
  way_back (at_time 1700000200000) (LrRouter (be_bytes 32 500)) = true.
Proof.
  split; [exact (proj1 C69_ex)|]. split; [exact (proj1 C70_ex)|]. split; [exists []; vm_compute; reflexivity|]. split.
  - unfold recalls, flood_history. cbn [fold_left]. unfold recall_step. cbn [snd fst]. rewrite parse_token. reflexivity.
  - reflexivity.
Qed.

(** ** C72: messages for a router that is being dialed *)
(** A router loses its connection.  Whatever happens to others after that, it is dialed at most
    once; nothing is sent to it; and when the dial succeeds it is sent, in order, what it would
    have been sent had it stayed connected, except what has expired meanwhile.  Nobody else
    notices the difference. *)
Theorem C72_kept_for_the_dial :
  forall e gunzip c r s0 ops a sent_a b sent_b,
    nget r (fd_links s0) = Some Connected ->
    Forall (fun x => v_linked (fst x) r = false /\ v_dial (fst x) r = true /\ not_about r (snd x)) ops ->
    fruns e gunzip c s0 ((fst (hd (at_time 0, FMaintain) ops), FClosed r) :: ops) = Some (a, sent_a) ->
    fruns e gunzip c s0 (map (fun x => (linked r (fst x), snd x)) ops) = Some (b, sent_b) ->
    sent_to r sent_a = [] /\ dials r sent_b = 0%nat /\
    (dials r sent_a <= 1)%nat /\ (dials r sent_a = 0%nat <-> sent_to r sent_b = []) /\
    (fd_leases b = fd_leases a /\ fd_infos b = fd_infos a /\ fd_dht b = fd_dht a /\ fd_routers b = fd_routers a) /\
    exists ks, map kept_bytes ks = sent_to r sent_b /\
      forall v, v_linked v r = true ->
      exists a' out, fstep e gunzip c v a (FEstablished r) = Some (a', out) /\
        sent_to r out = map kept_bytes (filter (worth_sending (v_now v)) ks).
Proof.
  intros e gunzip c r s0 ops a sent_a b sent_b C F RA RB.
  cbn [fruns fstep] in RA. unfold on_gone in RA. cbv beta iota in RA.
  set (s1 := with_links (ndel r (fd_links s0)) s0) in RA.
  destruct (fruns e gunzip c s1 ops) as [[a0 oa]|] eqn:RA'; [|discriminate]. injection RA as -> <-. cbn [app].
  assert (L1 : nget r (fd_links s1) = None).
  { unfold s1. cbn [with_links fd_links]. now rewrite nget_ndel, N.eqb_refl. }
  assert (W : waits r s1 s0).
  { unfold waits. rewrite L1. repeat (split; [first [reflexivity|assumption|exact I]|]).
    intros x Nx. unfold s1. cbn [with_links fd_links]. rewrite nget_ndel. destruct (N.eqb_spec x r); [contradiction|]. now destruct (N.eqb_spec r x); [congruence|]. }
  destruct (runs_in_step e gunzip c r ops s1 s0 a oa b sent_b F W RA' RB) as (Wab & ks & Q & M & SA & DA & DB).
  pose proof Wab as (W1 & W2 & W3 & W4 & W5 & W6 & _).
  assert (Q1 : queue r s1 = []) by (unfold queue; now rewrite L1). rewrite Q1 in Q. cbn [app] in Q.
  split; [exact SA|]. split; [exact DB|].
  unfold dial_count in DA. rewrite L1 in DA. split; [|split].
  - rewrite DA. destruct (nget r (fd_links a)) as [[|q]|]; repeat constructor.
  - rewrite DA. unfold queue in Q. destruct (nget r (fd_links a)) as [[|q]|]; [easy| |].
    + split; [discriminate|]. intros E. rewrite E in M. destruct ks; [|discriminate]. now elim W6.
    + split; [|reflexivity]. intros _. rewrite <- M, <- Q. reflexivity.
  - split; [repeat split; assumption|]. exists ks. split; [exact M|]. intros v Hv.
    destruct (on_established v a r) as [a' out] eqn:E. exists a', out. cbn [fstep]. rewrite E. split; [reflexivity|].
    destruct (established_sends v a r a' out Hv E) as [X _]. now rewrite X, Q.
Qed.
Print Assumptions C72_kept_for_the_dial.

(** If the dial fails, what was kept is gone: the router is sent nothing of it. *)
Theorem C72_dropped_on_failure :
  forall e gunzip c r s v s1 out1 v2 s2 out2,
    fstep e gunzip c v s (FFailed r) = Some (s1, out1) ->
    fstep e gunzip c v2 s1 (FEstablished r) = Some (s2, out2) -> out1 = [] /\ out2 = [] /\ nget r (fd_links s1) = None.
Proof.
  intros e gunzip c r s v s1 out1 v2 s2 out2 H1 H2. cbn [fstep] in H1, H2. unfold on_gone in H1. injection H1 as <- <-.
  assert (L : nget r (fd_links (with_links (ndel r (fd_links s)) s)) = None).
  { cbn [with_links fd_links]. now rewrite nget_ndel, N.eqb_refl. }
  unfold on_established in H2. rewrite L in H2. injection H2 as _ <-. split; [reflexivity|]. split; [reflexivity|exact L].
Qed.
Print Assumptions C72_dropped_on_failure.

(** Router 500 is gone when the acknowledgement falls due, and comes back in time. *)
Definition cut_off (r now : N) : fenv :=
  mkFenv now (fun k => be_val k) (fun r => r <? 100) 11 12 13 (fun x => negb (x =? r)) (fun _ => true) true.
Example C72_ex :
  exists s0 o0 a b sa sb m,
    fruns toy (fun _ => None) toy_conf (fdb_new toy_conf) (firstn 2 flood_history) = Some (s0, o0) /\
    nget 500 (fd_links s0) = Some Connected /\
    let ops := [(cut_off 500 1700000100000, FStore toy_store_token)] in
    Forall (fun x => v_linked (fst x) 500 = false /\ v_dial (fst x) 500 = true /\ not_about 500 (snd x)) ops /\
    fruns toy (fun _ => None) toy_conf s0 ((fst (hd (at_time 0, FMaintain) ops), FClosed 500) :: ops) = Some (a, sa) /\
    fruns toy (fun _ => None) toy_conf s0 (map (fun x => (linked 500 (fst x), snd x)) ops) = Some (b, sb) /\
    sent_to 500 sb = [m] /\ dials 500 sa = 1%nat /\
    nget 500 (fd_links a) = Some (Dialing [Expiring m 1700000108000]).
Proof.
  eexists _, _, _, _, _, _, _. split; [vm_compute; reflexivity|]. split; [vm_compute; reflexivity|]. cbv zeta.
  split; [apply Forall_cons; [split; [reflexivity|split; [reflexivity|exact I]]|apply Forall_nil]|].
  cbn [map hd fst snd fruns fstep]. unfold on_gone. cbv beta iota. rewrite !token_step.
  split; [vm_compute; reflexivity|]. split; [vm_compute; reflexivity|]. split; [vm_compute; reflexivity|].
  split; vm_compute; reflexivity.
Qed.

(** ** C73: the database survives everything *)
(** No event - whatever bytes a message carries, whatever state the router is in, whatever the
    transport does - makes the database panic. *)
Theorem C73_never_panics :
  forall e gunzip c ops s, exists s' sent, fruns e gunzip c s ops = Some (s', sent).
Proof. intros e gunzip c ops. exact (runs_total e gunzip c ops). Qed.
Print Assumptions C73_never_panics.
Example C73_ex : exists s sent, fruns toy (fun _ => None) toy_conf (fdb_new toy_conf) flood_history = Some (s, sent) /\ sent <> [].
Proof. destruct flood_run as (s & m1 & m2 & msg & msg2 & d & R & _). exists s, [ToRouter 500 m1; ToRouter 5 m2]. split; [exact R|discriminate]. Qed.
