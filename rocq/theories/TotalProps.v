(** C42 for the parsers of identities, lease sets, stores, garlic messages and payloads: what is
    sliced, subtracted and expected never panics. *)
From Coq Require Import List NArith Bool Arith Lia ZArith.
From Verif Require Import ListUtil Bytes PrimModel PrimProps I2npModel GarlicModel EncModel TotalModel TotalSpec TotalProofs TotalProofs2.
Import ListNotations.
Open Scope N_scope.

(** The outcome [Panic] is reachable in this model: a slice past the end, an array of another
    length, an [expect] on too little, a key that does not fit. *)
Example can_panic :
  cslice 4 36 [1; 2; 3] [] = Panic /\ carray 32 [1; 2; 3] [] = Panic /\ csub 3 4 [] = Panic /\
  c_raw true (repeat 0 37) = Panic /\ c_raw false (repeat 0 36) = Panic /\
  rectify [1; 2; 3] 2 [] = Panic.
Proof. repeat split; vm_compute; reflexivity. Qed.

(** For every byte string and whatever the signature checks answer: reading a destination, a
    router identity, a router info, an offline signature, a lease set header and a lease set
    ends with a value or an error, and the value is the one the parser models (C26-C29) give. *)
Theorem C42_identities : forall e,
  safe (c_dest e) (parse_dest e) /\
  safe (c_ri e) (parse_ri e) /\
  safe (c_rinfo e) (parse_rinfo e) /\
  (forall key, safe (c_offline e key) (parse_offline e key)) /\
  safe (c_lsh e) (parse_lsh e) /\
  safe (c_ls e) (parse_ls e).
Proof.
  intros e. split; [apply agree_safe, c_dest_ok|]. split; [apply agree_safe, c_ri_ok|].
  split; [apply agree_safe, c_rinfo_ok|]. split; [intros key; apply agree_safe, c_offline_ok|].
  split; [apply agree_safe, c_lsh_ok|]. apply agree_safe, c_ls_ok.
Qed.
Print Assumptions C42_identities.

(** 387 bytes that are a destination with a null certificate, 386 that are not. *)
Example dest_short :
  match c_dest toy (repeat 0 387) with
  | Good d r => d_serialized d = repeat 0 387 /\ d_key d = Dsa (repeat 0 128) /\ r = []
  | _ => False
  end /\ c_dest toy (repeat 0 386) = Refuse.
Proof. split; [|vm_compute; reflexivity]. vm_compute. auto. Qed.

(** DSA keys and signatures: 128 bytes are kept as they are, whatever zeros they start with;
    a signature of at least 40 bytes is cut in two, a shorter one is an error. *)
Theorem C42_dsa : forall l i,
  (length l = 128%nat -> rectify l 128 i = Good l i) /\
  ((40 <= length l)%nat /\ (exists r s rest, l = r ++ s ++ rest /\ length r = 20%nat /\
      length s = 20%nat /\ dsa_signature l i = Good (r, s) i) \/
   (length l < 40)%nat /\ dsa_signature l i = Refuse).
Proof.
  intros l i. split; [intros L; apply rectify_ok; lia|].
  unfold dsa_signature. destruct (Nat.ltb_spec (length l) 40) as [L|L]; [now right|left].
  split; [lia|]. rewrite !cslice_step by lia.
  exists (slice 0 20 l), (slice 20 40 l), (skipn 40 l).
  split; [|rewrite !slice_len by lia; auto].
  unfold slice. cbn [Nat.sub]. change (skipn 0 l) with l.
  rewrite <- (firstn_skipn 20 l) at 1. f_equal.
  rewrite <- (firstn_skipn 20 (skipn 20 l)) at 1. f_equal. now rewrite skipn_twice.
Qed.
Print Assumptions C42_dsa.

(** A database store: reading it never panics; when it is accepted, taking the raw payload out
    again never panics either, and the bytes taken out are the ones the accepted router info
    (compressed) or lease set was read from. *)
Theorem C42_store : forall e gunzip,
  safe (c_store e gunzip) (parse_store e gunzip) /\
  never_panics (store_and_raw e gunzip) /\
  forall i s raw r, store_and_raw e gunzip i = Good (s, raw) r ->
    parse_store e gunzip i = Some (s, r) /\
    match st_payload s with
    | SpRouterInfo ri => exists d r', gunzip raw = Some d /\ parse_rinfo e d = Some (ri, r')
    | SpLeaseSet2 ls => parse_ls e raw = Some (ls, r)
    end.
Proof.
  intros e gunzip. split; [apply agree_safe, c_store_ok|]. split.
  - intros i E0. assert (H := store_and_raw_ok e gunzip i). now rewrite E0 in H.
  - intros i s raw r E0. assert (H := store_and_raw_ok e gunzip i). now rewrite E0 in H.
Qed.
Print Assumptions C42_store.

Example raw_of_a_store :
  c_raw true (repeat 1 32 ++ [0] ++ [0; 0; 0; 5] ++ [0; 0; 0; 0] ++ repeat 2 32 ++ [0; 2; 8; 9; 7])
  = Good [8; 9] [7] /\
  c_raw false (repeat 1 32 ++ [3] ++ [0; 0; 0; 0] ++ [8; 9; 7]) = Good [8; 9; 7] [8; 9; 7].
Proof. split; vm_compute; reflexivity. Qed.

(** Session key blocks of garlic messages, payloads of the client protocol, garlic messages for
    tunnels and the packet whose signature is checked. *)
Theorem C42_messages :
  safe c_next_key parse_next_key /\
  (forall w i, c_parameters w i = match payload_parameters w with Some a => Good a i | None => Refuse end) /\
  (forall compress gunzip w i, c_decompress gunzip w i =
     match payload_decompress (mkGzip compress gunzip) w with Some a => Good a i | None => Refuse end) /\
  (forall p i,
     (length p < 36)%nat /\ c_tunnel_garlic p i = Refuse \/
     exists tag k ct, p = tag ++ k ++ ct /\ length tag = 4%nat /\ length k = 32%nat /\
       c_tunnel_garlic p i = Good (k, ct) i) /\
  (forall packet pl sl i,
     (length packet < pl + sl)%nat /\ c_blank packet pl sl i = Refuse \/
     exists head sig payload, packet = head ++ sig ++ payload /\ length sig = sl /\
       length payload = pl /\ c_blank packet pl sl i = Good (head ++ repeat 0 sl ++ payload) i).
Proof.
  split; [apply agree_safe; intros; now apply c_next_key_ok|].
  split; [intros; now apply c_parameters_ok|].
  split; [intros; now apply c_decompress_ok|].
  split; [intros; now apply c_tunnel_garlic_ok|]. intros; now apply c_blank_ok.
Qed.
Print Assumptions C42_messages.

Example a_payload :
  c_parameters [31; 139; 8; 0; 1; 2; 3; 4; 0; 6; 9; 9] [] = Good (258, 772, Streaming) [] /\
  c_parameters [31; 139; 8; 0; 1; 2; 3; 4; 0] [] = Refuse /\
  c_blank [1; 2; 3; 4; 5; 6] 2 3 [] = Good [1; 0; 0; 0; 5; 6] [] /\
  c_tunnel_garlic (repeat 7 40) [] = Good (repeat 7 32, repeat 7 4) [].
Proof. repeat split; vm_compute; reflexivity. Qed.

(** Messages and blocks that say how long they are: the length of the header is never
    subtracted from less, in I2NP messages and in the router info blocks of NTCP2, whether
    overflows are checked or not. *)
Theorem C42_sizes :
  safe c_short parse_short /\
  (forall checks, safe (c_ntcp2_router_info checks) Ntcp2Model.parse_nrouter_info) /\
  (forall e, safe (c_ssu2_router_info e false) (Ssu2Model.s_router_info e)).
Proof.
  split; [apply agree_safe; intros; now apply c_short_ok|].
  split; [intros checks; apply agree_safe; intros; now apply c_ntcp2_ok|].
  intros e. apply agree_safe. intros i. destruct (c_ssu2_ok e false i) as [(H & _)|[_ H]]; [discriminate|exact H].
Qed.
Print Assumptions C42_sizes.

(** The router info block of SSU2 subtracts two from its size after having refused only zero:
    with overflow checks, a block of size one, whatever follows, panics; nothing else does. *)
Theorem C42_ssu2_router_info_refuted : forall e i,
  c_ssu2_router_info e true i = Panic <->
  exists flag frag r, i = 0 :: 1 :: flag :: frag :: r.
Proof.
  intros e i. destruct (c_ssu2_ok e true i) as [(_ & H & ->)|[H ->]].
  - split; [intros _; exact H|reflexivity].
  - split; [|intros X; exfalso; apply H; auto].
    unfold lift. destruct (Ssu2Model.s_router_info e i) as [[? ?]|]; discriminate.
Qed.
Print Assumptions C42_ssu2_router_info_refuted.

Example sizes :
  c_ssu2_router_info toy true [0; 1; 0; 1; 9] = Panic /\
  c_ssu2_router_info toy false [0; 1; 0; 1; 9] = Refuse /\
  c_short [0; 10; 20; 0; 0; 0; 5; 0; 0; 0; 7; 42; 1] = Good (mkMsg Data 5 (of_secs 7) [42]) [1] /\
  c_short [0; 9; 20; 0; 0; 0; 5; 0; 0; 0; 7; 42; 1] = Refuse.
Proof. repeat split; vm_compute; reflexivity. Qed.

(** Delivery instructions of a clove: accepted only without the two flags that are not
    supported (bit 7, encrypted, and bit 4, delay); then bits 5 and 6 say which kind it is. *)
Theorem C23_delivery_flags : forall flag r,
  match parse_delivery (flag :: r) with
  | None => N.testbit flag 7 = true \/ N.testbit flag 4 = true \/
      (length r < match N.testbit flag 6, N.testbit flag 5 with
                  | false, false => 0 | true, true => 36 | _, _ => 32 end)%nat
  | Some (d, rest) => N.testbit flag 7 = false /\ N.testbit flag 4 = false /\
      match N.testbit flag 6, N.testbit flag 5, d with
      | false, false, DLocal => rest = r
      | false, true, DDestination h => r = h ++ rest /\ length h = 32%nat
      | true, false, DRouter h => r = h ++ rest /\ length h = 32%nat
      | true, true, DTunnel h t => exists w, r = h ++ w ++ rest /\ length h = 32%nat /\
          length w = 4%nat /\ t = be_val w
      | _, _, _ => False
      end
  end.
Proof. exact delivery_flags. Qed.
Print Assumptions C23_delivery_flags.

Example deliveries :
  parse_delivery [0; 7] = Some (DLocal, [7]) /\ parse_delivery [128; 7] = None /\
  parse_delivery [16; 7] = None /\
  parse_delivery (64 :: repeat 3 32 ++ [7]) = Some (DRouter (repeat 3 32), [7]).
Proof. repeat split; vm_compute; reflexivity. Qed.

(** Reading a garlic message nests calls.  Blocks of unknown kinds are skipped by a call inside
    the call: at most one per three bytes, and for every [n] there is a message of [3 n + 4]
    bytes that is accepted and makes [n + 1] calls active at once.  So do messages of many
    blocks.  The depth has no other bound than the length of the message. *)
Theorem C42_nested_calls :
  (forall i, (3 * frame_depth (length i) i <= 3 + length i)%nat) /\
  (forall n, length (skipped n) = (3 * n + 4)%nat /\
     parse_garlic (skipped n) = Some [BAckRequest] /\
     frame_depth (length (skipped n)) (skipped n) = S n) /\
  (forall n, length (padded n) = (3 * n + 3)%nat /\
     parse_garlic (padded n) = Some (repeat (BPadding []) (S n)) /\
     inner_depth (length (padded n)) (padded n) = S n).
Proof.
  split; [intros; apply frame_depth_bound|]. split.
  - intros n. split; [apply skipped_len|]. split; [apply skip_parse|].
    apply skip_depth. rewrite skipped_len. lia.
  - intros n. split; [apply padded_len|]. split.
    + unfold parse_garlic. rewrite pad_parse by (rewrite padded_len; lia). reflexivity.
    + apply pad_depth. rewrite padded_len. lia.
Qed.
Print Assumptions C42_nested_calls.

Example two_deep : frame_depth 7 [1; 0; 0; 9; 0; 1; 0] = 2%nat /\
  parse_garlic [1; 0; 0; 9; 0; 1; 0] = Some [BAckRequest].
Proof. split; vm_compute; reflexivity. Qed.
