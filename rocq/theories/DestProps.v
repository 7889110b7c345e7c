(** Properties C80-C85: client destinations. *)
From Coq Require Import List NArith Bool Lia.
From Verif Require Import ListUtil Bytes NMap PrimModel RpathModel RpathSpec RpathProofs DestModel DestSpec DestProofs DestProofs2 DestProofs3.
Import ListNotations.
Open Scope N_scope.

(** Small lease sets for the examples: of remote [id], published at [pub] (seconds, for ten
    minutes), with leases (tunnel, expiry in seconds). *)
Definition toy_id (d : destination) : N := be_val (d_hash d).
Definition ls_of (id pub : N) (leases : list (N * N)) : lease_set :=
  mkLs (mkLsh (mkDest [id] [] (Ed25519 [])) (pub + 600) None pub false) [[3]]
       (map (fun x => mkLease [fst x] (fst x) (1000 * snd x)) leases).
Definition outs_of (ops : list dop) : option (list (list dout)) := option_map snd (drun toy_id (d_new [7]) ops).

(** ** C80: where a message goes *)
Theorem C80_send :
  forall did tunnels ops d outs now r st msg k d' o,
    drun did (d_new tunnels) ops = Some (d, outs) ->
    dstep did d (SendMessage now r st msg k) = Some (d', o) ->
    send_spec now r st msg (history did r unknown ops outs) o.
Proof.
  intros did tunnels ops d outs now r st msg k d' o Hrun Hs.
  pose proof (run_rel did _ _ _ _ r unknown (rel_unknown r tunnels) Hrun) as R.
  eapply send_inner_out; eauto.
Qed.
Print Assumptions C80_send.

(** Nothing else sends messages, apart from a lookup that ends. *)
Theorem C80_nothing_else_sends :
  forall did d op d' o, dstep did d op = Some (d', o) ->
    match op with
    | SendMessage _ _ _ _ _ | Result _ _ _ _ => True
    | _ => forall x, In x o -> is_send x = false
    end.
Proof.
  intros did d op d' o H. pose proof (only_sends did d op d' o H) as G.
  destruct op; auto; intros x Hx; rewrite forallb_forall in G; apply G in Hx; now apply negb_true_iff.
Qed.
Print Assumptions C80_nothing_else_sends.

(** A lookup brings tunnels 4 and 5; a message through the route (5, 7), one through any. *)
Example C80_ex :
  outs_of [Query 1000 1; Result 2000 1 (Some (ls_of 1 0 [(4, 500); (5, 550)])) [];
           SendMessage 3000 1 (ViaRoute 5 7) [65] 0; SendMessage 4000 1 Unspecified [66] 8;
           SendMessage 601000 1 Unspecified [67] 0] =
    Some [[Lookup 1; Status NotFound]; [LeaseSetFound 1]; [Send [5] 5 (Some 7) [65]]; [Send [4] 4 None [66]]; [Lookup 1]].
Proof. vm_compute. reflexivity. Qed.

(** A lease that has expired is used as long as another one of the lease set has not. *)
Theorem C80_expired_lease_refuted :
  exists ops d outs now msg k,
    drun toy_id (d_new [7]) ops = Some (d, outs) /\
    exists d' router tunnel, dstep toy_id d (SendMessage now 1 Unspecified msg k) = Some (d', [Send router tunnel None msg]) /\
      forall ls l, In ls (taken (history toy_id 1 unknown ops outs)) -> In l (ls_leases ls) -> l_tunnel l = tunnel ->
        l_expires_ms l + 60000 < now.
Proof.
  exists [Clove 1000 (ls_of 1 0 [(4, 100); (5, 550)])]. eexists; eexists. exists 200000, [65], 0.
  split; [vm_compute; reflexivity|]. eexists; eexists; eexists. split; [vm_compute; reflexivity|].
  cbn. intros ls l [<-|[]] [<-|[<-|[]]]; cbn; lia.
Qed.
Print Assumptions C80_expired_lease_refuted.

(** ** C81: messages put off are sent in order when the lookup succeeds *)
Theorem C81_put_off_sent_partial :
  forall did tunnels ops d outs now r res rs d' o,
    drun did (d_new tunnels) ops = Some (d, outs) ->
    dstep did d (Result now r res rs) = Some (d', o) ->
    result_spec now r res (history did r unknown ops outs) o.
Proof.
  intros did tunnels ops d outs now r res rs d' o Hrun Hs.
  pose proof (run_rel did _ _ _ _ r unknown (rel_unknown r tunnels) Hrun) as R.
  eapply on_result_out; eauto.
Qed.
Print Assumptions C81_put_off_sent_partial.

(** Two messages after the lease set has expired; the lookup brings a new one. *)
Example C81_ex :
  outs_of [Clove 1000 (ls_of 1 0 [(4, 100)]); SendMessage 700000 1 Unspecified [65] 0; SendMessage 700001 1 (ViaRoute 4 7) [66] 0;
           Result 701000 1 (Some (ls_of 1 650 [(5, 1200); (6, 1200)])) [0; 1]; SendMessage 702000 1 Unspecified [67] 1] =
    Some [[]; [Lookup 1]; []; [Send [5] 5 None [65]; Send [6] 6 None [66]; LeaseSetFound 1]; [Send [6] 6 None [67]]].
Proof. vm_compute. reflexivity. Qed.

(** The remote sends its new lease set itself.  Messages put off before stay where they are: later
    ones overtake them, and when the lookup fails they are never sent, whatever else happens short
    of another lookup that succeeds. *)
Lemma stays_put_off did r : forall ops s outs m, In m (put_off s) -> length outs = length ops ->
  (forall now ls rs, ~ In (Result now r (Some ls) rs) ops) -> In m (put_off (history did r s ops outs)).
Proof.
  induction ops as [|op ops IH]; intros s outs m Hm Hlen Hno; [destruct outs; exact Hm|].
  destruct outs as [|o outs]; [discriminate|]. cbn [history]. apply IH; [|now injection Hlen|].
  - unfold learn. destruct op; cbn [put_off]; auto.
    + destruct ((remote =? r) && stale now s); cbn; [apply in_or_app|]; auto.
    + destruct ((_ =? r) && _); cbn; auto.
    + destruct res as [ls|]; destruct ((remote =? r) && looking s) eqn:E; cbn; auto.
      exfalso. apply andb_true_iff in E as [E _]. apply N.eqb_eq in E as ->. eapply Hno. left; reflexivity.
  - intros now ls rs H. eapply Hno. right; exact H.
Qed.
Definition c81_ops : list dop :=
  [Clove 1000 (ls_of 1 0 [(4, 100)]); SendMessage 700000 1 Unspecified [65] 0;
   Clove 701000 (ls_of 1 700 [(5, 1200)]); SendMessage 702000 1 Unspecified [66] 0; Result 703000 1 None []].
Theorem C81_overtaken_refuted :
  exists d, drun toy_id (d_new [7]) c81_ops = Some (d, [[]; [Lookup 1]; []; [Send [5] 5 None [66]]; [LeaseSetNotFound 1]]) /\
    forall ops d2 outs2, drun toy_id d ops = Some (d2, outs2) ->
      (forall now ls rs, ~ In (Result now 1 (Some ls) rs) ops) ->
      In [65] (put_off (history toy_id 1 (history toy_id 1 unknown c81_ops [[]; [Lookup 1]; []; [Send [5] 5 None [66]]; [LeaseSetNotFound 1]]) ops outs2)).
Proof.
  eexists. split; [vm_compute; reflexivity|]. intros ops d2 outs2 Hrun Hno. apply stays_put_off; [vm_compute; auto| |exact Hno].
  assert (G : forall ops d d2 outs2, drun toy_id d ops = Some (d2, outs2) -> length outs2 = length ops).
  { clear. induction ops as [|op ops IH]; intros d d2 outs2; cbn [drun]; [intros E; injection E as _ <-; reflexivity|].
    destruct (dstep toy_id d op) as [[d1 o]|]; [|discriminate]. destruct (drun toy_id d1 ops) as [[d3 os]|] eqn:E; [|discriminate].
    intros E'; injection E' as _ <-. cbn. f_equal. eapply IH; eauto. }
  eapply G; exact Hrun.
Qed.
Print Assumptions C81_overtaken_refuted.

(** A lookup that brings a lease set which has expired is reported as a success; nothing is sent
    and the next lookup starts. *)
Theorem C81_found_expired_refuted :
  exists ops, outs_of ops = Some [[]; [Lookup 1]; [Lookup 1; LeaseSetFound 1]] /\
    exists now ls, In (Result now 1 (Some ls) []) ops /\ ls_expired now ls = true.
Proof.
  exists [Clove 1000 (ls_of 1 0 [(4, 100)]); SendMessage 700000 1 Unspecified [65] 0; Result 701000 1 (Some (ls_of 1 10 [(4, 110)])) []].
  split; [vm_compute; reflexivity|]. exists 701000, (ls_of 1 10 [(4, 110)]). split; [right; right; left; reflexivity|vm_compute; reflexivity].
Qed.
Print Assumptions C81_found_expired_refuted.

(** ** C82: one lookup of a remote at a time *)
Theorem C82_one_lookup :
  forall did tunnels ops d outs op d' o r,
    drun did (d_new tunnels) ops = Some (d, outs) -> dstep did d op = Some (d', o) ->
    (length (filter (is_lookup r) o) <= 1)%nat /\
    (looking (history did r unknown ops outs) = true -> (forall now res rs, op <> Result now r res rs) ->
     ~ In (Lookup r) o).
Proof.
  intros did tunnels ops d outs op d' o r Hrun Hs.
  pose proof (run_rel did _ _ _ _ r unknown (rel_unknown r tunnels) Hrun) as R.
  destruct (one_lookup did _ _ _ _ _ _ R Hs) as [A B]. split; [exact A|].
  intros Hl Hop Hin. specialize (B Hl Hop). unfold lookups_in in B.
  assert (Hf : In (Lookup r) (filter (is_lookup r) o)) by (apply filter_In; split; [exact Hin|apply N.eqb_refl]).
  destruct (filter (is_lookup r) o); [contradiction|discriminate].
Qed.
Print Assumptions C82_one_lookup.

Theorem C82_query :
  forall did tunnels ops d outs now r d' o,
    drun did (d_new tunnels) ops = Some (d, outs) -> dstep did d (Query now r) = Some (d', o) ->
    query_spec now r (history did r unknown ops outs) o.
Proof.
  intros did tunnels ops d outs now r d' o Hrun Hs.
  pose proof (run_rel did _ _ _ _ r unknown (rel_unknown r tunnels) Hrun) as R. eapply query_out; eauto.
Qed.
Print Assumptions C82_query.

Example C82_ex :
  outs_of [Query 1000 1; Query 1001 1; Query 1002 2; Result 2000 1 None []; Query 3000 1; Result 3100 1 (Some (ls_of 1 0 [(4, 500)])) []; Query 3200 1] =
    Some [[Lookup 1; Status NotFound]; [Status Pending]; [Lookup 2; Status NotFound]; [LeaseSetNotFound 1];
          [Lookup 1; Status NotFound]; [LeaseSetFound 1]; [Status Found]].
Proof. vm_compute. reflexivity. Qed.

(** A handle whose leases are about to expire asks for a new lease set while the destination's is
    still valid: no lookup starts, the handle is not told, and from then on neither it nor any other
    handle makes the destination look the remote up again, also after everything has expired. *)
Definition c82_ops : list dop :=
  [Clove 1000 (ls_of 1 0 [(4, 100)]); NewHandle 1; UseHandle 0 (HPath (one_reading 80000 0 0 true)); Commands 80000].
Theorem C82_never_looked_up_refuted :
  exists d outs, drun toy_id (d_new [7]) c82_ops = Some (d, outs) /\
    outs = [[]; []; [HandleOut 0 (Got None true)]; []] /\
    forall ops d2 outs2, drun toy_id d ops = Some (d2, outs2) -> Forall (hands_off toy_id 1) ops ->
      Forall (fun o => ~ In (Lookup 1) o) outs2.
Proof.
  eexists; eexists. split; [vm_compute; reflexivity|]. split; [reflexivity|].
  intros ops d2 outs2 Hrun Hoff. eapply run_blocked; [|exact Hrun|exact Hoff].
  split; [vm_compute; discriminate|reflexivity].
Qed.
Print Assumptions C82_never_looked_up_refuted.
Example C82_never_ex :
  outs_of (c82_ops ++ [UseHandle 0 (HPoll 200000); UseHandle 0 (HPath (one_reading 200000 0 0 true)); Commands 200000;
                       NewHandle 1; UseHandle 1 (HPath (one_reading 300000 0 0 true)); Commands 300000]) =
    Some [[]; []; [HandleOut 0 (Got None true)]; []; [HandleOut 0 Quiet]; [HandleOut 0 (Got None false)]; [];
          []; [HandleOut 1 (Got None true)]; []].
Proof. vm_compute. reflexivity. Qed.

(** ** C83: no panic *)
Theorem C83_no_panic :
  forall did tunnels ops,
    (forall now r ls rs, In (Result now r (Some ls) rs) ops -> ls_keys ls <> []) ->
    drun did (d_new tunnels) ops <> None.
Proof.
  intros did tunnels ops. generalize (d_new tunnels) as d. induction ops as [|op ops IH]; intros d H; cbn [drun]; [discriminate|].
  destruct (dstep did d op) as [[d1 o]|] eqn:E.
  - specialize (IH d1). destruct (drun did d1 ops) as [[d2 os]|]; [discriminate|]. apply IH. intros now r ls rs Hin. eapply H. right; exact Hin.
  - exfalso. eapply step_total; [|exact E]. intros now r ls rs ->. eapply H. left; reflexivity.
Qed.
Print Assumptions C83_no_panic.
(** Lease sets that were parsed carry a key. *)
Theorem C83_parsed_has_key :
  forall e b ls rest, parse_ls e b = Some (ls, rest) -> ls_keys ls <> [] /\ ls_leases ls <> [].
Proof.
  intros e b ls rest. unfold parse_ls. unfold bind at 1. destruct (parse_lsh e b) as [[h b1]|]; [|discriminate].
  unfold bind at 1. destruct (parse_multi b1) as [[u b2]|]; [|discriminate].
  unfold bind at 1. destruct (be_uint 1 b2) as [[nk b3]|]; [|discriminate].
  unfold bind at 1. destruct (many (N.to_nat nk) parse_pubkey b3) as [[ks b4]|]; [|discriminate].
  unfold bind at 1. destruct (somes ks) as [|k0 kr]; [discriminate|]. cbn [guard].
  unfold bind at 1. destruct (be_uint 1 b4) as [[nl b5]|]; [|discriminate].
  unfold bind at 1. destruct ((16 <? nl) || (nl =? 0)) eqn:En; [discriminate|]. cbn [negb guard].
  unfold bind at 1. destruct (many (N.to_nat nl) parse_lease2 b5) as [[l b6]|] eqn:El; [|discriminate].
  unfold bind at 1. destruct (take _ b6) as [[sg b7]|]; [|discriminate].
  unfold bind at 1. destruct (guard _ b7) as [[u' b8]|]; [|discriminate].
  unfold ret. intros E. injection E as <- _. cbn [ls_keys ls_leases]. split; [discriminate|].
  apply orb_false_iff in En as [_ En]. apply N.eqb_neq in En. intros ->.
  destruct (N.to_nat nl) as [|n] eqn:Enl; [lia|]. cbn [many] in El. unfold bind in El.
  destruct (parse_lease2 b5) as [[x b9]|]; [|discriminate]. destruct (many n parse_lease2 b9) as [[y b10]|]; discriminate.
Qed.
Print Assumptions C83_parsed_has_key.

(** ** C84: only lease sets that arrived for the remote are used *)
Definition arrived (did : destination -> N) (r : N) (ops : list dop) (ls : lease_set) : Prop :=
  (exists now, In (Clove now ls) ops /\ did (h_dest (ls_header' ls)) = r) \/
  (exists now rs, In (Result now r (Some ls) rs) ops).
Lemma taken_arrived did r : forall ops outs s, 
  (forall ls, in_use s = Some ls -> In ls (taken s)) ->
  let s' := history did r s ops outs in
  (forall ls, in_use s' = Some ls -> In ls (taken s')) /\
  forall ls, In ls (taken s') -> In ls (taken s) \/ arrived did r ops ls.
Proof.
  induction ops as [|op ops IH]; intros outs s Hs; [destruct outs; cbn; auto|].
  destruct outs as [|o outs]; [cbn; auto|]. cbn [history].
  assert (A : (forall ls, in_use (learn did r s op o) = Some ls -> In ls (taken (learn did r s op o))) /\
              forall ls, In ls (taken (learn did r s op o)) -> In ls (taken s) \/ arrived did r [op] ls).
  { unfold learn. destruct op; cbn [in_use taken]; auto.
    - destruct (_ && _); cbn; auto.
    - destruct (did _ =? r) eqn:E; cbn [andb]; [|cbn; auto]. destruct (negb _); cbn; [|auto]. split.
      + intros l El. injection El as <-. apply in_or_app; cbn; auto.
      + intros l Hl. apply in_app_or in Hl as [Hl|[<-|[]]]; [auto|right; left]. apply N.eqb_eq in E. exists now. cbn; auto.
    - destruct res as [ls|]; destruct ((remote =? r) && looking s) eqn:E; cbn; auto. split.
      + intros l El. injection El as <-. apply in_or_app; cbn; auto.
      + intros l Hl. apply in_app_or in Hl as [Hl|[<-|[]]]; [auto|right; right]. apply andb_true_iff in E as [E _]. apply N.eqb_eq in E as ->.
        exists now, rs. cbn; auto. }
  destruct A as [A1 A2]. destruct (IH outs _ A1) as [B1 B2]. split; [exact B1|].
  intros ls Hls. apply B2 in Hls as [Hls|Hls].
  - apply A2 in Hls as [Hls|[(now & [->|[]] & E)|(now & rs & [->|[]])]]; [auto|right; left|right; right].
    + exists now. split; [now left|exact E].
    + exists now, rs. now left.
  - right. destruct Hls as [(now & Hin & E)|(now & rs & Hin)]; [left|right].
    + exists now. split; [now right|exact E].
    + exists now, rs. now right.
Qed.
Theorem C84_arrived_partial :
  forall did tunnels ops d outs now r st msg k d' router tunnel via m,
    drun did (d_new tunnels) ops = Some (d, outs) ->
    dstep did d (SendMessage now r st msg k) = Some (d', [Send router tunnel via m]) ->
    m = msg /\ exists ls l, arrived did r ops ls /\ In l (ls_leases ls) /\ l_router l = router /\ l_tunnel l = tunnel.
Proof.
  intros did tunnels ops d outs now r st msg k d' router tunnel via m Hrun Hs.
  pose proof (C80_send _ _ _ _ _ _ _ _ _ _ _ _ Hrun Hs) as S.
  destruct (taken_arrived did r ops outs unknown) as [A1 A2]; [discriminate|].
  assert (A3 : forall ls, In ls (taken (history did r unknown ops outs)) -> arrived did r ops ls).
  { intros ls Hls. now apply A2 in Hls as [[]|Hls]. }
  unfold send_spec in S. destruct (in_use _) as [ls|] eqn:Eu; [|discriminate].
  specialize (A1 ls eq_refl). destruct (ls_expired now ls).
  { destruct (looking _); discriminate. }
  destruct st as [i ob|].
  - destruct S as [(l & B1 & B2 & B3)|[_ [B|(old & l & B1 & B2 & B3 & B4)]]]; [|discriminate|].
    + injection B3 as -> -> -> ->. split; [reflexivity|]. exists ls, l. auto.
    + injection B4 as -> -> -> ->. split; [reflexivity|]. exists old, l. auto.
  - destruct S as (x & E & l & B1 & B2). injection E as <-. injection B2 as -> -> -> ->. split; [reflexivity|]. exists ls, l. auto.
Qed.
Print Assumptions C84_arrived_partial.
Example C84_ex :
  outs_of [Clove 1000 (ls_of 1 0 [(4, 500)]); Clove 1000 (ls_of 2 0 [(6, 500)]); SendMessage 2000 1 Unspecified [65] 3] =
    Some [[]; []; [Send [4] 4 None [65]]].
Proof. vm_compute. reflexivity. Qed.

(** The lease set a lookup brings is not compared with the remote that was looked up: messages for
    the remote go to another destination's tunnels. *)
Theorem C84_foreign_refuted :
  exists ops, outs_of ops = Some [[Lookup 1; Status NotFound]; [LeaseSetFound 1]; [Send [9] 9 None [65]]] /\
    forall now x ls rs, In (Result now x (Some ls) rs) ops -> toy_id (h_dest (ls_header' ls)) <> x.
Proof.
  exists [Query 1000 1; Result 2000 1 (Some (ls_of 2 0 [(9, 500)])) []; SendMessage 3000 1 Unspecified [65] 0].
  split; [vm_compute; reflexivity|]. intros now x ls rs [E|[E|[E|[]]]]; try discriminate. injection E as <- <- <- <-. vm_compute. discriminate.
Qed.
Print Assumptions C84_foreign_refuted.
(** An older lease set of the remote replaces a newer one. *)
Theorem C84_older_refuted :
  exists new old, h_published (ls_header' old) < h_published (ls_header' new) /\
    outs_of [Clove 400000 new; Clove 400000 old; SendMessage 401000 1 Unspecified [65] 0] = Some [[]; []; [Send [5] 5 None [65]]] /\
    forall l, In l (ls_leases new) -> l_tunnel l <> 5.
Proof.
  exists (ls_of 1 390 [(4, 900)]), (ls_of 1 0 [(5, 500)]). split; [cbn; lia|]. split; [vm_compute; reflexivity|].
  intros l [<-|[]]. discriminate.
Qed.
Print Assumptions C84_older_refuted.

(** ** C85: routes stay usable *)
Theorem C85_routes_kept_partial :
  forall did tunnels ops1 d1 outs1 r ls l,
    drun did (d_new tunnels) ops1 = Some (d1, outs1) ->
    in_use (history did r unknown ops1 outs1) = Some ls -> In l (ls_leases ls) ->
    (forall l', In l' (ls_leases ls) -> l_tunnel l' = l_tunnel l -> l_expires_ms l <= l_expires_ms l') ->
    forall ops2 d2 outs2, drun did d1 ops2 = Some (d2, outs2) -> Forall (calm did r (l_tunnel l) (l_expires_ms l)) ops2 ->
    forall now ob msg k d3 o, dstep did d2 (SendMessage now r (ViaRoute (l_tunnel l) ob) msg k) = Some (d3, o) ->
    stale now (history did r (history did r unknown ops1 outs1) ops2 outs2) = false ->
    exists router, o = [Send router (l_tunnel l) (Some ob) msg].
Proof. exact routes_kept. Qed.
Print Assumptions C85_routes_kept_partial.

(** The remote has replaced the lease set twice; tunnel 4 is used until it expires. *)
Example C85_ex :
  outs_of [Clove 1000 (ls_of 1 0 [(4, 500)]); Clove 2000 (ls_of 1 2 [(5, 550)]); Prune 3000; Clove 4000 (ls_of 1 3 [(6, 580)]);
           SendMessage 5000 1 (ViaRoute 4 7) [65] 0] = Some [[]; []; []; []; [Send [4] 4 (Some 7) [65]]] /\
  Forall (calm toy_id 1 4 500000) [Clove 2000 (ls_of 1 2 [(5, 550)]); Prune 3000; Clove 4000 (ls_of 1 3 [(6, 580)])].
Proof.
  split; [vm_compute; reflexivity|]. repeat apply Forall_cons; try apply Forall_nil; cbn; try lia;
    intros _ l [<-|[]]; discriminate.
Qed.

(** A lookup replaces the lease set without keeping its leases: a message through a route whose
    lease is valid for eight more minutes is dropped. *)
Theorem C85_lookup_drops_route_refuted :
  exists ls, (exists l, In l (ls_leases ls) /\ l_tunnel l = 4 /\ 5000 + 480000 < l_expires_ms l) /\
    outs_of [Query 1000 1; Clove 2000 ls; Result 3000 1 (Some (ls_of 1 2 [(5, 550)])) []; SendMessage 5000 1 (ViaRoute 4 7) [65] 0] =
      Some [[Lookup 1; Status NotFound]; []; [LeaseSetFound 1]; []].
Proof.
  exists (ls_of 1 0 [(4, 500)]). split; [|vm_compute; reflexivity]. eexists. split; [left; reflexivity|]. cbn. split; [reflexivity|lia].
Qed.
Print Assumptions C85_lookup_drops_route_refuted.
