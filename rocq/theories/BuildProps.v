(** C55: building a tunnel. *)
From Coq Require Import List NArith Bool Arith Lia ZifyBool ZifyNat ZifyN.
From Verif Require Import ListUtil Bytes NMap PrimModel I2npModel I2npSpec GarlicModel TunnelModel
  NoiseModel RouteModel TransitModel TransitSpec TransitProofs3 NoiseToy BuildModel BuildSpec BuildProofs BuildProofs2 BuildProofs3.
Import ListNotations.
Open Scope N_scope.

(** An outbound tunnel.  The request is sent to the first hop, every hop handles it and sends it
    to the router named in its own record, the last one through the gateway tunnel the reply was
    asked for.  Every node that took part started a tunnel with the id, role, next hop and keys
    the owner has for that hop.  The owner ends up with the tunnel exactly if every node accepted;
    otherwise it fails. *)
Theorem C55_outbound : forall c, crypto_laws c ->
  forall now mid hs extra fakes gateway id router eph p first msg nodes,
  create_tunnel c Outbound now mid hs extra fakes gateway id router eph = inl (p, first, msg) ->
  request_ok now mid hs fakes gateway router ->
  Forall2 (serves c) hs nodes ->
  clear c 0 msg nodes ->
  first = nth 0 (map hi_hash hs) [] /\
  exists final legs, travel c msg nodes = Some (final, legs) /\
    ends_agree Outbound hs gateway router p nodes legs /\
    (Forall (fun l => l_slot l <> None) legs -> try_build c p final = Built (p_hops p)) /\
    (~ Forall (fun l => l_slot l <> None) legs ->
       try_build c p final =
         Failed (combine (rev (map hi_hash hs)) (map (fun l => verdict (l_slot l)) legs))).
Proof.
  intros c laws now mid hs extra fakes gateway id router eph p first msg nodes E R Hn Hc.
  unfold create_tunnel in E. destruct (Nat.ltb_spec MAX_RECORDS (length hs)) as [|L8]; [discriminate E|].
  unfold MAX_RECORDS in L8. destruct hs as [|h0 t]; [discriminate E|].
  apply (f_equal (fun s => match s with inl x => x | inr _ => (p, first, msg) end)) in E. cbv beta iota zeta in E.
  apply pair_equal_spec in E as [E <-]. apply pair_equal_spec in E as [<- <-].
  split; [reflexivity|].
  destruct (whole_build c laws Outbound now mid (h0 :: t) extra fakes gateway id router nodes (now + of_ms 10000))
    as (final & legs & T1 & T2 & T3).
  - cbn [length] in *. lia.
  - exact R.
  - destruct R as (Rt & _). unfold in_time in Rt. unfold of_ms. lia.
  - exact Hn.
  - exact Hc.
  - exists final, legs. split; [exact T1|]. split; [exact T2|]. rewrite T3. split; intro F.
    + assert (B : forallb (fun l => opens (l_slot l)) legs = true).
      { apply forallb_forall. intros l Hl. rewrite Forall_forall in F. specialize (F l Hl).
        destruct (l_slot l); [reflexivity | contradiction]. }
      rewrite B. reflexivity.
    + destruct (forallb (fun l => opens (l_slot l)) legs) eqn:B; [|reflexivity].
      exfalso. apply F. apply Forall_forall. intros l Hl. rewrite forallb_forall in B. specialize (B l Hl).
      destruct (l_slot l); [discriminate | discriminate B].
Qed.
Print Assumptions C55_outbound.

(** An inbound tunnel.  The request travels to the first hop as a garlic message only that hop can
    open; delivered within its eight seconds (counted in whole seconds), the hop finds exactly one message in it,
    the build request, and the rest is as above.  [gateway] is the id under which the owner
    receives the tunnel's messages. *)
Theorem C55_inbound : forall c, crypto_laws c ->
  forall now mid hs extra fakes id router eph p first msg nodes arrived,
  create_tunnel c Inbound now mid hs extra fakes id id router eph = inl (p, first, msg) ->
  request_ok now mid hs fakes id router ->
  Forall2 (serves c) hs nodes ->
  arrived <= whole_seconds (now + 8000000000) ->
  first = nth 0 (map hi_hash hs) [] /\ m_type msg = Garlic /\
  exists h1 n1 rest, nodes = (h1, n1) :: rest /\
  exists request, garlic_local c arrived (tm_noise n1) (m_payload msg) = Some [request] /\
  (clear c 0 request nodes ->
   exists final legs, travel c request nodes = Some (final, legs) /\
    ends_agree Inbound hs id router p nodes legs /\
    (Forall (fun l => l_slot l <> None) legs -> try_build c p final = Built (p_hops p)) /\
    (~ Forall (fun l => l_slot l <> None) legs ->
       try_build c p final =
         Failed (combine (rev (map hi_hash hs)) (map (fun l => verdict (l_slot l)) legs)))).
Proof.
  intros c laws now mid hs extra fakes id router eph p first msg nodes arrived E R Hn Ha.
  unfold create_tunnel in E. destruct (Nat.ltb_spec MAX_RECORDS (length hs)) as [|L8]; [discriminate E|].
  unfold MAX_RECORDS in L8. destruct hs as [|h0 t]; [discriminate E|].
  apply (f_equal (fun s => match s with inl x => x | inr _ => (p, first, msg) end)) in E. cbv beta iota zeta in E.
  apply pair_equal_spec in E as [E <-]. apply pair_equal_spec in E as [<- <-].
  split; [reflexivity|].
  inversion Hn as [|? [h1 n1] ? rest Hs Hn' E1 E2]; subst.
  pose proof (hop_roles_ok Inbound (length (h0 :: t))) as (L1 & _ & _); [cbn [length]; lia|].
  pose proof R as (Rt & Rm & Rg & Rr & Rh & Rf).
  destruct (make_hops_facts c laws now mid id router Rr (h0 :: t) (hop_roles Inbound (length (h0 :: t))) L1 Rh) as (M1 & M2 & _ & _).
  pose proof (num_records_ok (length (h0 :: t)) extra ltac:(cbn [length] in *; lia)) as Hnum.
  change (ser_records _) with (request_of c Inbound now mid (h0 :: t) extra fakes id router).
  assert (Lp : N.of_nat (length (request_of c Inbound now mid (h0 :: t) extra fakes id router)) <= 2000).
  { unfold request_of, ser_records. rewrite app_length, be_bytes_length.
    rewrite (concat_length 218).
    - rewrite layer_length, app_length, !map_length, seq_length, M1. lia.
    - apply layer_218; [exact laws|]. apply Forall_app. split; [exact M2|]. apply Forall_forall. intros r Hr.
      apply in_map_iff in Hr as (k & <- & _). apply Rf. }
  destruct Hs as (S1 & S2 & S3). cbn [fst snd] in S1, S2, S3.
  destruct (inbound_opens c laws now mid h0 eph (request_of c Inbound now mid (h0 :: t) extra fakes id router)
              (tm_noise n1) arrived Rt Rm Lp S2 Ha) as (G1 & G2).
  split; [exact G1|]. exists h1, n1, rest. split; [reflexivity|].
  eexists. split; [exact G2|]. intro Hc.
  destruct (whole_build c laws Inbound now mid (h0 :: t) extra fakes id id router ((h1, n1) :: rest) (whole_seconds (now + of_ms 8000)))
    as (final & legs & T1 & T2 & T3).
  - cbn [length] in *. lia.
  - exact R.
  - pose proof (whole_le (now + of_ms 8000)). unfold in_time in Rt. unfold of_ms in *. lia.
  - exact Hn.
  - exact Hc.
  - exists final, legs. split; [exact T1|]. split; [exact T2|]. rewrite T3. split; intro F.
    + assert (B : forallb (fun l => opens (l_slot l)) legs = true).
      { apply forallb_forall. intros l Hl. rewrite Forall_forall in F. specialize (F l Hl).
        destruct (l_slot l); [reflexivity | contradiction]. }
      rewrite B. reflexivity.
    + destruct (forallb (fun l => opens (l_slot l)) legs) eqn:B; [|reflexivity].
      exfalso. apply F. apply Forall_forall. intros l Hl. rewrite forallb_forall in B. specialize (B l Hl).
      destruct (l_slot l); [discriminate | discriminate B].
Qed.
Print Assumptions C55_inbound.

(** How many hops: one to eight; the request has room for four or eight records. *)
Theorem C55_hop_count : forall c d now mid hs extra fakes gateway id router eph,
  match create_tunnel c d now mid hs extra fakes gateway id router eph with
  | inl (p, _, _) => (1 <= length hs <= 8)%nat /\ (length hs <= p_num p <= 8)%nat
  | inr NotEnoughHops => hs = []
  | inr TooManyHops => (8 < length hs)%nat
  end.
Proof.
  intros. unfold create_tunnel. destruct (Nat.ltb_spec MAX_RECORDS (length hs)) as [H|H]; unfold MAX_RECORDS in H; [exact H|].
  destruct hs as [|h t]; [reflexivity|]. cbn [p_num].
  pose proof (num_records_ok (length (h :: t)) extra ltac:(cbn [length] in *; lia)). cbn [length] in *. lia.
Qed.
Print Assumptions C55_hop_count.

(** Whatever message is taken for the reply: the tunnel is used only with all its hops, in order,
    and only if it contains, for each hop, an answer that opens with the key shared with that hop
    alone and says "accepted". *)
Theorem C55_needs_every_hop : forall c p msg hops,
  try_build c p msg = Built hops ->
  hops = p_hops p /\
  forall i hp, nth_error hops i = Some hp ->
    exists sealed plain,
      x_open c (k_reply (th_keys hp)) (N.of_nat i) (th_state hp) sealed = Some plain /\ nth 201 plain 0 = 0.
Proof.
  intros c p msg hops H. unfold try_build in H.
  destruct (reply_of c p msg) as [payload| |]; try discriminate H.
  destruct (negb _); [discriminate H|].
  destruct (process c 0 (p_hops p) _) as [[Q|] rs] eqn:E; [|discriminate H].
  destruct (forallb _ rs) eqn:F; [|discriminate H].
  apply (f_equal (fun x => match x with Built l => l | _ => hops end)) in H. cbv beta iota in H. subst hops.
  split; [reflexivity|]. intros i hp Hi. destruct (process_all c _ _ _ _ _ E) as [_ G].
  exact (G F i hp Hi).
Qed.
Print Assumptions C55_needs_every_hop.

(** A reply never makes the owner panic, unless it is a garlic message of less than twelve bytes
    (first exception, reachable: any router can send one through the reply tunnel) or the endpoint
    has no garlic key (never: see [C55_outbound]). *)
Theorem C55_no_panic_partial : forall c p msg,
  (m_type msg = Garlic -> (12 <= length (m_payload msg))%nat) ->
  (p_dir p = Outbound -> last (map (fun h => k_garlic (th_keys h)) (p_hops p)) None <> None) ->
  try_build c p msg <> BuildPanic.
Proof.
  intros c p msg H1 H2. unfold try_build.
  assert (G : reply_of c p msg <> RpPanic).
  { unfold reply_of. destruct (p_dir p); destruct (m_type msg); try discriminate.
    destruct (Nat.ltb_spec (length (m_payload msg)) 12); [specialize (H1 eq_refl); lia|].
    destruct (last _ None) as [[gk gt]|]; [|exfalso; exact (H2 eq_refl eq_refl)].
    destruct (x_open _ _ _ _ _); [|discriminate]. destruct (parse_garlic _); [|discriminate].
    destruct (find _ _) as [b|]; [|discriminate]. destruct b; discriminate. }
  destruct (reply_of c p msg); [|discriminate | contradiction].
  destruct (negb _); [discriminate|]. destruct (process _ _ _ _) as [[?|] ?]; [|discriminate].
  destruct (forallb _ _); discriminate.
Qed.
Print Assumptions C55_no_panic_partial.
Example C55_short_garlic_panics_refuted :
  exists p msg, m_type msg = Garlic /\ try_build noise_toy p msg = BuildPanic.
Proof. exists (mkPending Outbound [] 1 0), (mkMsg Garlic 1 0 []). split; reflexivity. Qed.

(** ** A concrete tunnel of two hops *)
Definition ex_hop (n : N) : hin := mkHin (repeat n 32) (x_pub noise_toy (repeat (n + 100) 32)) (n * 10) (repeat (n + 50) 32) (repeat 0 96).
Definition ex_node (n max : N) : node :=
  (5000000000, tm_new (Some (Some max)) (mkNoise (repeat (n + 100) 32) (repeat n 32)) 64 64).
Definition ex_fakes (i : nat) : bytes := repeat (N.of_nat i) 218.
Definition ex_build (d : direction) : (pending * bytes * message) + build_error :=
  create_tunnel noise_toy d 4000000000 77 [ex_hop 1; ex_hop 2] 1 ex_fakes 900 900 (repeat 7 32) (repeat 8 32).
Definition ex_parts (d : direction) : pending * bytes * message :=
  match ex_build d with inl x => x | inr _ => (mkPending d [] 0 0, [], mkMsg Garlic 0 0 []) end.
Definition ex_req (d : direction) : message :=
  match d with
  | Outbound => snd (ex_parts d)
  | Inbound => match garlic_local noise_toy 5000000000 (mkNoise (repeat 101 32) (repeat 1 32)) (m_payload (snd (ex_parts d))) with
               | Some [m] => m | _ => mkMsg Garlic 0 0 [] end
  end.
Definition ex_run (d : direction) (nodes : list node) : option built :=
  match travel noise_toy (ex_req d) nodes with
  | Some (final, _) => Some (try_build noise_toy (fst (fst (ex_parts d))) final)
  | None => None
  end.
Definition ex_summary (b : option built) : option (list N + list (list N * option hop_result)) :=
  match b with
  | Some (Built hops) => Some (inl (map th_id hops))
  | Some (Failed l) => Some (inr (map (fun x => (firstn 1 (fst x), snd x)) l))
  | _ => None
  end.

Lemma toy_laws : crypto_laws noise_toy.
Proof.
  split; [exact toy_sizes|]. split; [exact toy_dh|]. split; [exact toy_open|].
  split; [intro k; apply pad32_length|]. intros k d. apply gen_length.
Qed.
Example C55_hypotheses :
  crypto_laws noise_toy /\
  request_ok 4000000000 77 [ex_hop 1; ex_hop 2] ex_fakes 900 (repeat 7 32) /\
  Forall2 (serves noise_toy) [ex_hop 1; ex_hop 2] [ex_node 1 10; ex_node 2 10] /\
  clear noise_toy 0 (ex_req Outbound) [ex_node 1 10; ex_node 2 10] /\
  clear noise_toy 0 (ex_req Inbound) [ex_node 1 10; ex_node 2 10].
Proof.
  split; [exact toy_laws|]. split; [|split; [|split]].
  - unfold request_ok. split; [reflexivity|]. split; [reflexivity|]. split; [reflexivity|].
    split; [reflexivity|]. split; [|intro i; apply repeat_length].
    constructor; [|constructor; [|constructor]]; (split; [reflexivity|]; split; reflexivity).
  - constructor; [|constructor; [|constructor]]; (split; [reflexivity|]; split; reflexivity).
  - apply clear_b_sound. vm_compute. reflexivity.
  - apply clear_b_sound. vm_compute. reflexivity.
Qed.
Example C55_runs :
  map (fun d => ex_summary (ex_run d [ex_node 1 10; ex_node 2 10])) [Inbound; Outbound] =
  [Some (inl [10; 20]); Some (inl [10; 20])].
Proof. vm_compute. reflexivity. Qed.

(** Who is to blame, as the code reports it.  Read as pairs, the report of [C55_outbound] names
    the wrong router: the list of routers is reversed, the list of results is not.  In a tunnel of
    two hops in which only the second refuses, the report says that the first refused and the
    second accepted. *)
Theorem C55_blame_refuted :
  exists nodes final legs l,
    travel noise_toy (ex_req Outbound) nodes = Some (final, legs) /\
    map (fun l => match l_slot l with Some _ => true | None => false end) legs = [true; false] /\
    try_build noise_toy (fst (fst (ex_parts Outbound))) final = Failed l /\
    In (hi_hash (ex_hop 1), Some (HRejected 30)) l /\
    In (hi_hash (ex_hop 2), Some HAccepted) l.
Proof.
  pose (nodes := [ex_node 1 10; ex_node 2 0]).
  assert (H : match travel noise_toy (ex_req Outbound) nodes with
          | Some (final, legs) =>
              map (fun l => match l_slot l with Some _ => true | None => false end) legs = [true; false] /\
              try_build noise_toy (fst (fst (ex_parts Outbound))) final =
                Failed [(hi_hash (ex_hop 2), Some HAccepted); (hi_hash (ex_hop 1), Some (HRejected 30))]
          | None => False end) by (vm_compute; split; reflexivity).
  exists nodes. destruct (travel noise_toy (ex_req Outbound) nodes) as [[final legs]|]; [|contradiction].
  destruct H as [H1 H2]. exists final, legs. eexists.
  split; [reflexivity|]. split; [exact H1|]. split; [exact H2|].
  split; [right; left; reflexivity | left; reflexivity].
Qed.
Print Assumptions C55_blame_refuted.
