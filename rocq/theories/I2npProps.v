(** Property theorems C23 - C25 and C43 (garlic, I2NP, netdb and build-record codecs). *)
From Coq Require Import List NArith Bool Lia Arith.
From Verif Require Import ListUtil Bytes PrimModel PrimSpec PrimProofs PrimProps I2npModel GarlicModel
  I2npSpec I2npProofs GarlicProofs.
Import ListNotations.
Open Scope N_scope.

(** ** C24: I2NP messages *)
Theorem C24_short_roundtrip :
  forall m rest, m_id m < 2 ^ 32 -> m_expiration m < 1000000000 * 2 ^ 32 ->
    (0 < length (m_payload m))%nat -> N.of_nat (length (m_payload m)) <= 65526 ->
    parse_short (build_short m ++ rest) =
    Some (mkMsg (m_type m) (m_id m) (whole_seconds (m_expiration m)) (m_payload m), rest).
Proof. exact short_roundtrip. Qed.
Print Assumptions C24_short_roundtrip.

Theorem C24_standard_roundtrip :
  forall e m rest, m_id m < 2 ^ 32 -> m_expiration m < 1000000 * 2 ^ 64 ->
    (0 < length (m_payload m))%nat -> N.of_nat (length (m_payload m)) <= 65535 ->
    parse_standard (build_standard e m ++ rest) =
    Some (mkMsg (m_type m) (m_id m) (whole_millis (m_expiration m)) (m_payload m), rest).
Proof. exact standard_roundtrip. Qed.
Print Assumptions C24_standard_roundtrip.

(** Every proper prefix of an accepted message is rejected. *)
Theorem C24_truncation_rejected :
  (forall s m k, parse_short s = Some (m, []) -> (k < length s)%nat ->
     parse_short (firstn k s) = None) /\
  (forall s m k, parse_standard s = Some (m, []) -> (k < length s)%nat ->
     parse_standard (firstn k s) = None).
Proof.
  split; intros s m k H Hk.
  - exact (extends_truncation _ _ _ parse_short_extends H k Hk).
  - exact (extends_truncation _ _ _ parse_standard_extends H k Hk).
Qed.
Print Assumptions C24_truncation_rejected.

(** What the short parser accepts is exactly what the builder produces, so two different
    messages never share an encoding and nothing in the accepted bytes is ignored. *)
Theorem C24_short_canonical :
  forall i m r, bytes_ok i -> parse_short i = Some (m, r) ->
    i = build_short m ++ r /\ m_id m < 2 ^ 32 /\ (0 < length (m_payload m))%nat /\
    N.of_nat (length (m_payload m)) <= 65526 /\ m_expiration m < 1000000000 * 2 ^ 32.
Proof. exact short_canonical. Qed.
Print Assumptions C24_short_canonical.

(** In the standard form only the checksum byte is ignored. *)
Theorem C24_standard_canonical :
  forall e i m r, bytes_ok i -> parse_standard i = Some (m, r) ->
    m_id m < 2 ^ 32 /\ (0 < length (m_payload m))%nat /\
    N.of_nat (length (m_payload m)) <= 65535 /\ m_expiration m < 1000000 * 2 ^ 64 /\
    exists c, c < 256 /\ i = firstn 15 (build_standard e m) ++ c :: m_payload m ++ r.
Proof. exact standard_canonical. Qed.
Print Assumptions C24_standard_canonical.

(** The length functions used to size buffers report the real lengths. *)
Theorem C24_lengths :
  forall e m, N.of_nat (length (build_short m)) = len_short m /\
              N.of_nat (length (build_standard e m)) = len_long m.
Proof. intros e m. split; [apply build_short_length|apply build_standard_length]. Qed.
Print Assumptions C24_lengths.

(** Payloads that the short form's size field cannot describe are silently broken: the builder
    accepts them and its own parser refuses the result. *)
Theorem C24_refuted_long_payload :
  forall m, 65527 <= N.of_nat (length (m_payload m)) <= 65536 ->
    parse_short (build_short m) = None.
Proof. exact short_long_rejected. Qed.
Print Assumptions C24_refuted_long_payload.

(** Messages for the network database go there, all others to the tunnel subsystem. *)
Theorem C24_routing :
  forall m, msg_destination m = NetDb <->
    (m_type m = DatabaseStore \/ m_type m = DatabaseLookup \/ m_type m = DatabaseSearchReply).
Proof.
  intros m. unfold msg_destination. destruct (m_type m); split; intros H; auto;
    try discriminate; destruct H as [H|[H|H]]; discriminate.
Qed.
Print Assumptions C24_routing.

Example C24_ex :
  let m := mkMsg Garlic 4294967295 1700000000123456789 [1; 2; 3] in
  m_id m < 2 ^ 32 /\ m_expiration m < 1000000000 * 2 ^ 32 /\
  m_expiration m < 1000000 * 2 ^ 64 /\
  parse_short (build_short m) = Some (mkMsg Garlic 4294967295 1700000000000000000 [1; 2; 3], []) /\
  parse_standard (build_standard toy m)
  = Some (mkMsg Garlic 4294967295 1700000000123000000 [1; 2; 3], []).
Proof. repeat apply conj; vm_compute; reflexivity. Qed.
Example C24_ex_long :
  exists m, 65527 <= N.of_nat (length (m_payload m)) <= 65536.
Proof.
  exists (mkMsg Data 1 2 (repeat 0 (N.to_nat 65530))). cbn [m_payload].
  rewrite repeat_length. lia.
Qed.

(** ** C23: garlic messages *)
Theorem C23_garlic_roundtrip :
  forall l, Forall block_ok l -> l <> [] ->
    exists w, build_garlic l = Some w /\ parse_garlic w = Some (map received l).
Proof. exact garlic_roundtrip. Qed.
Print Assumptions C23_garlic_roundtrip.

(** Padding is returned and blocks of unknown type are skipped, wherever they are, as long as
    the message does not end with one. *)
Theorem C23_unknown_blocks_skipped :
  forall l last, Forall item_ok (l ++ [last]) -> understood last ->
    exists w, items_wire (l ++ [last]) = Some w /\
              parse_garlic w = Some (flat_map item_seen (l ++ [last])).
Proof.
  intros l last Hok Hu. destruct (items_wire_some _ Hok) as [w Hw].
  exists w. split; [easy|]. unfold parse_garlic.
  now rewrite (items_parse l w (length w) [] last).
Qed.
Print Assumptions C23_unknown_blocks_skipped.

(** A message ending with a block of unknown type is rejected as a whole, so its good cloves
    are lost. *)
Theorem C23_refuted_trailing_unknown_block :
  forall l t body, Forall item_ok (l ++ [Unknown t body]) ->
    exists w, items_wire (l ++ [Unknown t body]) = Some w /\ parse_garlic w = None.
Proof.
  intros l t body Hok. destruct (items_wire_some _ Hok) as [w Hw].
  exists w. split; [easy|]. eapply items_parse_trailing; eassumption.
Qed.
Print Assumptions C23_refuted_trailing_unknown_block.

(** The builder panics on a forward-key block with neither a key nor a request. *)
Theorem C23_refuted_builder_panics :
  exists l, build_garlic l = None /\
    Forall (fun b => match b with BPadding _ => False | _ => True end) l.
Proof.
  exists [BNextKey (ForwardKey 0 None false)]. split; [reflexivity|].
  apply Forall_cons; [exact I|apply Forall_nil].
Qed.
Print Assumptions C23_refuted_builder_panics.

(** The recursion bound of the model is never reached. *)
Theorem C23_parser_total :
  forall f g i, (length i <= f)%nat -> (length i <= g)%nat -> parse_block f i = parse_block g i.
Proof. intros. now apply (parse_block_fuel (length i)). Qed.
Print Assumptions C23_parser_total.

Example C23_ex :
  let l := [BDateTime 1337; BNextKey (ForwardKey 7 (Some (repeat 9 32)) true);
            BNextKey (ReverseKey 65535 None); BAck [(1, 2); (3, 4)]; BAckRequest;
            BClove Data 17 5000000001 (DTunnel (repeat 3 32) 99) [1; 2; 3]] in
  Forall block_ok l.
Proof.
  cbn zeta. repeat (apply Forall_cons; [|]); try apply Forall_nil; cbn [block_ok].
  - lia.
  - repeat apply conj; [lia|reflexivity|right; reflexivity].
  - split; [lia|exact I].
  - split; [cbn; lia|]. repeat (apply Forall_cons; [cbn; lia|]). apply Forall_nil.
  - exact I.
  - repeat apply conj; try lia; reflexivity.
Qed.
Example C23_ex_unknown : Forall item_ok ([Known BAckRequest; Pad [0; 0]] ++ [Unknown 15 [1]]).
Proof.
  cbn [app]. repeat (apply Forall_cons; [|]); try apply Forall_nil; cbn [item_ok block_ok].
  - exact I.
  - cbn. lia.
  - unfold unknown_type. cbn. repeat apply conj; lia.
Qed.

(** ** C25: netdb, delivery status and tunnel gateway messages *)
Theorem C25_lookup_roundtrip :
  forall key t reply ignored rest,
    hash_ok key -> Forall hash_ok ignored -> N.of_nat (length ignored) <= 512 ->
    match reply with
    | LrTunnel x r => x < 2 ^ 32 /\ hash_ok r
    | LrRouter r => hash_ok r
    end ->
    exists m, parse_lookup (ser_lookup key t reply ignored ++ rest) = Some (m, rest) /\
      lk_key m = key /\ lk_type m = t /\ lk_reply m = reply /\
      (forall x, In x (lk_ignore m) <-> In x ignored) /\ NoDup (lk_ignore m).
Proof.
  intros key t reply ignored rest Hk Hi Hn Hr.
  eexists. split; [apply lookup_roundtrip; assumption|]. cbn [lk_key lk_type lk_reply lk_ignore].
  destruct (fold_hset ignored []) as [A B].
  repeat apply conj; auto.
  - intros x. rewrite A. cbn. tauto.
  - apply B. constructor.
Qed.
Print Assumptions C25_lookup_roundtrip.

Theorem C25_search_reply_roundtrip :
  forall s rest, hash_ok (sr_key s) -> hash_ok (sr_from s) -> Forall hash_ok (sr_routers s) ->
    N.of_nat (length (sr_routers s)) < 256 ->
    parse_search_reply (ser_search_reply s ++ rest) = Some (s, rest).
Proof. exact search_reply_roundtrip. Qed.
Print Assumptions C25_search_reply_roundtrip.

Theorem C25_delivery_status_roundtrip :
  forall d rest, ds_id d < 2 ^ 32 -> ds_time d < 1000000 * 2 ^ 64 ->
    parse_delivery_status (ser_delivery_status d ++ rest) =
    Some (mkDs (ds_id d) (whole_millis (ds_time d)), rest).
Proof. exact delivery_status_roundtrip. Qed.
Print Assumptions C25_delivery_status_roundtrip.

Theorem C25_gateway_roundtrip :
  forall g rest, tg_id g < 2 ^ 32 -> N.of_nat (length (tg_payload g)) < 65536 ->
    parse_gateway (ser_gateway g ++ rest) = Some (g, rest).
Proof. exact gateway_roundtrip. Qed.
Print Assumptions C25_gateway_roundtrip.

(** A store message carrying a lease set signed by us parses to that lease set, with the
    reply instructions put in it. *)
Theorem C25_store_lease_set_roundtrip :
  forall e gunzip, ext_ok e -> forall key priv l r rest,
    hash_ok key -> store_reply_ok r -> ls_ok e priv l ->
    parse_store e gunzip (ser_store key (KLeaseSet2 (ser_ls e priv l)) r ++ rest) =
    Some (mkStore key (SpLeaseSet2 (on_the_wire l)) r, rest).
Proof.
  intros e gunzip He key priv l r rest Hk Hr Hl. apply store_ls_roundtrip; auto.
  now apply parse_ser_ls.
Qed.
Print Assumptions C25_store_lease_set_roundtrip.

Theorem C25_store_router_info_roundtrip :
  forall e gunzip key z data ri rr r rest,
    hash_ok key -> store_reply_ok r -> N.of_nat (length z) < 65536 ->
    gunzip z = Some data -> parse_rinfo e data = Some (ri, rr) ->
    parse_store e gunzip (ser_store key (KRouterInfo z) r ++ rest) =
    Some (mkStore key (SpRouterInfo ri) r, rest).
Proof. exact store_ri_roundtrip. Qed.
Print Assumptions C25_store_router_info_roundtrip.

(** After a successful parse, extracting the raw payload never panics and yields the bytes the
    parsed payload was read from (this is what a floodfill stores and forwards). *)
Theorem C25_extract_raw :
  forall e gunzip i m rest, parse_store e gunzip i = Some (m, rest) ->
    match st_payload m with
    | SpRouterInfo ri =>
        exists z data rr, extract_raw true i = Some z /\ gunzip z = Some data /\
                          parse_rinfo e data = Some (ri, rr)
    | SpLeaseSet2 ls =>
        exists b, extract_raw false i = Some b /\ parse_ls e b = Some (ls, rest)
    end.
Proof. exact extract_after_parse. Qed.
Print Assumptions C25_extract_raw.

(** Reply token 0 means "no reply" to the parser but the builder accepts it: the payload is
    then looked for in the wrong place. *)
Theorem C25_refuted_zero_token :
  exists key b r, hash_ok key /\ parse_ls toy b = Some (on_the_wire toy_ls, []) /\
    parse_store toy (fun _ => None) (ser_store key (KLeaseSet2 b) SrNone)
      = Some (mkStore key (SpLeaseSet2 (on_the_wire toy_ls)) SrNone, []) /\
    parse_store toy (fun _ => None) (ser_store key (KLeaseSet2 b) (SrTunnel 0 5 r)) = None.
Proof.
  exists (repeat 1 32), (ser_ls toy [1; 2] toy_ls), (repeat 2 32).
  repeat apply conj; vm_compute; reflexivity.
Qed.
Print Assumptions C25_refuted_zero_token.

Example C25_ex :
  hash_ok (repeat 1 32) /\ Forall hash_ok [repeat 1 32; repeat 2 32; repeat 1 32] /\
  store_reply_ok (SrTunnel 1 2 (repeat 4 32)) /\
  exists m, parse_lookup (ser_lookup (repeat 9 32) LExploration (LrTunnel 77 (repeat 8 32))
                            [repeat 1 32; repeat 2 32; repeat 1 32]) = Some (m, []) /\
            lk_ignore m = [repeat 1 32; repeat 2 32].
Proof.
  repeat apply conj; try reflexivity.
  - repeat (apply Forall_cons; [reflexivity|]). apply Forall_nil.
  - eexists. split; [vm_compute; reflexivity|vm_compute; reflexivity].
Qed.

(** ** C43: tunnel build records *)
Theorem C43_short_record_roundtrip :
  forall b time expi padding,
    br_tunnel b < 2 ^ 32 -> br_next_tunnel b < 2 ^ 32 -> hash_ok (br_next_router b) ->
    br_next_msg b < 2 ^ 32 -> length padding = 96%nat ->
    parse_short_record (ser_short_record b time expi padding) = Some (b, []) /\
    length (ser_short_record b time expi padding) = 154%nat.
Proof.
  intros b time expi padding H1 H2 H3 H4 Hp. split; [now apply short_record_roundtrip|].
  unfold ser_short_record, hash_ok in *. rewrite !app_length, !be_bytes_length. lia.
Qed.
Print Assumptions C43_short_record_roundtrip.

(** A variable record with any options is read back, provided it leaves at least as many
    padding bytes as come before the padding. *)
Theorem C43_variable_record_partial :
  forall v rk riv res times m padding,
    vr_tunnel v < 2 ^ 32 -> vr_next_tunnel v < 2 ^ 32 -> hash_ok (vr_next_router v) ->
    length (vr_layer v) = 32%nat -> length (vr_iv v) = 32%nat -> vr_next_msg v < 2 ^ 32 ->
    length rk = 32%nat -> length riv = 16%nat -> length res = 3%nat -> length times = 8%nat ->
    map_ok m -> N.of_nat (map_size m) < 65536 ->
    (170 + length (ser_options m) <= length padding)%nat ->
    exists rest, parse_var_record (var_wire v rk riv res times (ser_options m) padding)
                 = Some (v, rest).
Proof.
  intros. rewrite var_record_parse by assumption.
  destruct (Nat.leb_spec (170 + length (ser_options m)) (length padding)); [eauto|lia].
Qed.
Print Assumptions C43_variable_record_partial.

(** Any 464-byte record whose options need more than 62 bytes is refused although it is well
    formed: the padding is consumed with the wrong length. *)
Theorem C43_refuted_variable_options :
  forall v rk riv res times m padding,
    vr_tunnel v < 2 ^ 32 -> vr_next_tunnel v < 2 ^ 32 -> hash_ok (vr_next_router v) ->
    length (vr_layer v) = 32%nat -> length (vr_iv v) = 32%nat -> vr_next_msg v < 2 ^ 32 ->
    length rk = 32%nat -> length riv = 16%nat -> length res = 3%nat -> length times = 8%nat ->
    map_ok m -> N.of_nat (map_size m) < 65536 ->
    (62 < length (ser_options m))%nat ->
    length (var_wire v rk riv res times (ser_options m) padding) = 464%nat ->
    parse_var_record (var_wire v rk riv res times (ser_options m) padding) = None.
Proof.
  intros v rk riv res times m padding ? ? Hh ? ? ? ? ? ? ? ? ? ? L.
  rewrite var_record_parse by assumption.
  unfold var_wire in L. rewrite !app_length, !be_bytes_length in L. unfold hash_ok in Hh.
  destruct (Nat.leb_spec (170 + length (ser_options m)) (length padding)); [lia|reflexivity].
Qed.
Print Assumptions C43_refuted_variable_options.

Example C43_ex :
  let v := mkVr 1 2 (repeat 3 32) (repeat 4 32) (repeat 5 32) OutboundEndpoint 6 in
  length (var_wire v (repeat 7 32) (repeat 8 16) [0; 0; 0] (repeat 0 8) [] (repeat 1 294)) = 464%nat /\
  option_map fst (parse_var_record
    (var_wire v (repeat 7 32) (repeat 8 16) [0; 0; 0] (repeat 0 8) [] (repeat 1 294))) = Some v.
Proof. split; vm_compute; reflexivity. Qed.
Example C43_ex_options :
  map_ok [([97], repeat 98 70)] /\ (62 < length (ser_options [([97%N], repeat 98%N 70)]))%nat.
Proof.
  split.
  - apply Forall_cons; [|apply Forall_nil]. split; apply ascii_ok; cbn; try lia;
      repeat (apply Forall_cons; [reflexivity|]); apply Forall_nil.
  - cbn. lia.
Qed.
