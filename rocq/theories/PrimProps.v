(** Property theorems C26 - C29 (strings, option maps, destinations, router identities, lease
    sets, router infos). *)
From Coq Require Import List NArith Bool Lia Sorted.
From Verif Require Import Bytes PrimModel PrimSpec PrimProofs.
Import ListNotations.
Open Scope N_scope.

(** A toy instance of the external primitives, used only in the examples: the "signature" of
    a message is its 64 low-order bytes. *)
Definition toy_sign (m : list N) : list N := be_bytes 64 (be_val m).
Definition toy : ext :=
  mkExt (fun k => negb (beq k (repeat 0 32))) (fun _ => true) (fun _ => true)
    (fun k m s => match k with Ed25519 _ => beq s (toy_sign m) | _ => false end)
    (fun _ m => toy_sign m) (fun k => 1 :: be_bytes 31 (be_val k)) (fun k => be_bytes 32 (be_val k))
    (fun m => be_bytes 32 (be_val m)) (fun h => Some h).
Lemma toy_ok : ext_ok toy.
Proof.
  constructor; intros; cbn [toy ed_public ed_valid x_public ed_sign verify].
  - cbn [length]. now rewrite be_bytes_length.
  - destruct (beq _ _) eqn:E; [|reflexivity]. apply beq_eq in E. discriminate.
  - apply be_bytes_length.
  - apply be_bytes_length.
  - apply beq_refl.
Qed.

(** ** C26: strings and option maps *)
Theorem C26_string_roundtrip :
  forall s rest, str_ok s -> parse_str (ser_str s ++ rest) = Some (s, rest).
Proof. exact parse_ser_str. Qed.
Print Assumptions C26_string_roundtrip.

(** A string made from text is that text, can be written and read back, and is refused exactly
    when it is longer than 255 bytes. *)
Theorem C26_string_from_text : forall cs s, Forall scalar cs -> s = text cs ->
  (255 < N.of_nat (length s) <-> str_from_str s = None) /\
  forall x, str_from_str s = Some x -> x = s /\ forall rest, parse_str (ser_str x ++ rest) = Some (s, rest).
Proof.
  intros cs s U E. unfold str_from_str, len. destruct (N.ltb_spec 255 (N.of_nat (length s))) as [L|L].
  - split; [split; auto | discriminate].
  - split; [split; [lia | discriminate]|]. intros x H. injection H as <-. split; [reflexivity|]. intro rest.
    apply parse_ser_str. split; [exists cs; auto | lia].
Qed.
Print Assumptions C26_string_from_text.

Theorem C26_string_canonical :
  forall i s rest, bytes_ok i -> parse_str i = Some (s, rest) ->
    i = ser_str s ++ rest /\ str_ok s.
Proof. intros i s rest Hi H. destruct (parse_str_inv i s rest Hi H) as (A & B & _). auto. Qed.
Print Assumptions C26_string_canonical.

Theorem C26_mapping_roundtrip :
  forall m rest, map_ok m -> N.of_nat (map_size m) < 65536 ->
    parse_multi (be_bytes 2 (len (ser_options m)) ++ ser_options m ++ rest) = Some (m, rest).
Proof. intros. now apply parse_multi_ser. Qed.
Print Assumptions C26_mapping_roundtrip.

(** The map read back is the map written: a map without duplicate keys, listed in key order,
    is unchanged; in general a key is looked up as the last value listed for it. *)
Theorem C26_map_preserved :
  forall m, sorted_map m -> into_hashmap m = m.
Proof. exact into_hashmap_sorted. Qed.
Print Assumptions C26_map_preserved.

Theorem C26_last_value_wins :
  forall k v l1 l2, (forall x, In x l2 -> fst x <> k) ->
    mget k (into_hashmap (l1 ++ (k, v) :: l2)) = Some v.
Proof.
  intros k v l1 l2 H. rewrite into_hashmap_get. unfold last_value.
  rewrite fold_left_app. cbn [fold_left fst snd]. rewrite beq_refl.
  induction l2 as [|x l2]; [reflexivity|]. cbn [fold_left].
  destruct (beq k (fst x)) eqn:E.
  - apply beq_eq in E. exfalso. apply (H x); cbn; auto.
  - apply IHl2. intros y Hy. apply H. now right.
Qed.
Print Assumptions C26_last_value_wins.

(** The reading loop ends because the input does, not because of the model's fuel. *)
Theorem C26_loop_terminates_by_itself :
  forall f n acc i, (length i <= f)%nat ->
    parse_mappings (length i) n acc i = parse_mappings f n acc i.
Proof. intros. now apply parse_mappings_fuel. Qed.
Print Assumptions C26_loop_terminates_by_itself.

(** [Str::from(String)] does not check the length; a 256-byte string does not survive. *)
Theorem C26_refuted_long_string :
  exists s, utf8_ok s = true /\ parse_str (ser_str s) <> Some (s, []).
Proof. exists (repeat 97 256). split; [reflexivity|]. vm_compute. discriminate. Qed.
Print Assumptions C26_refuted_long_string.

(** The declared size is only a lower bound for what the option parser reads. *)
Theorem C26_refuted_declared_size :
  exists i m rest, parse_multi (be_bytes 2 1 ++ i) = Some (m, rest) /\
                   (length rest + 1 < length i)%nat.
Proof.
  exists (ser_mapping ([97], [98]) ++ [1; 2; 3]), [([97], [98])], [1; 2; 3].
  split; [reflexivity|]. cbn. lia.
Qed.
Print Assumptions C26_refuted_declared_size.

Example C26_ex :
  str_ok [104; 195; 169] /\
  map_ok [([97], [98; 99]); ([98], [])] /\ sorted_map [([97], [98; 99]); ([98], [])].
Proof.
  repeat apply conj.
  - exists [104; 233]. split; [|reflexivity].
    apply Forall_cons; [left; lia|]. apply Forall_cons; [left; lia|apply Forall_nil].
  - cbn. lia.
  - apply Forall_cons; [|apply Forall_cons; [|apply Forall_nil]];
      split; apply ascii_ok; cbn; try lia; repeat constructor.
  - constructor; [|]. { constructor; constructor. } constructor; [reflexivity|constructor].
Qed.

(** ** C27: destinations and router identities *)
Theorem C27_new_destination_roundtrip :
  forall e padding key rest,
    length padding = 352%nat -> length key = 32%nat -> ed_valid e key = true ->
    parse_dest e (ser_dest (dest_new e padding key) ++ rest) = Some (dest_new e padding key, rest).
Proof. exact dest_new_parses. Qed.
Print Assumptions C27_new_destination_roundtrip.

(** What was consumed is what will be serialized, the id is the hash of exactly those bytes,
    the reported length is right, and the bytes parse to the same destination anywhere. *)
Theorem C27_destination_stable :
  forall e i d rest, parse_dest e i = Some (d, rest) ->
    i = ser_dest d ++ rest /\ d_hash d = sha256 e (ser_dest d) /\
    length (ser_dest d) = dest_len d /\
    (forall rest', parse_dest e (ser_dest d ++ rest') = Some (d, rest')).
Proof. exact parse_dest_inv. Qed.
Print Assumptions C27_destination_stable.

Theorem C27_identity_roundtrip :
  forall e r rest,
    length (ri_static r) = 32%nat -> length (ri_padding r) = 320%nat ->
    length (ri_signing r) = 32%nat -> ed_valid e (ri_signing r) = true ->
    ri_hash r = sha256 e (ser_ri r) ->
    parse_ri e (ser_ri r ++ rest) = Some (r, rest).
Proof. exact parse_ser_ri. Qed.
Print Assumptions C27_identity_roundtrip.

Theorem C27_identity_stable :
  forall e i r rest, bytes_ok i -> parse_ri e i = Some (r, rest) ->
    i = ser_ri r ++ rest /\ ri_hash r = sha256 e (ser_ri r) /\
    (forall rest', parse_ri e (ser_ri r ++ rest') = Some (r, rest')).
Proof.
  intros e i r rest Hi H. destruct (parse_ri_inv e i r rest Hi H) as (A & B & C & D & F & G & _).
  repeat apply conj; auto. intros. now apply parse_ser_ri.
Qed.
Print Assumptions C27_identity_stable.

Theorem C27_generated_identity_parses :
  forall e static signing padding rest, ext_ok e -> length padding = 320%nat ->
    parse_ri e (ser_ri (ri_from_keys e static signing padding) ++ rest)
    = Some (ri_from_keys e static signing padding, rest) /\
    ri_static (ri_from_keys e static signing padding) = x_public e static /\
    ri_signing (ri_from_keys e static signing padding) = ed_public e signing.
Proof.
  intros e static signing padding rest He Hp. split; [|split; reflexivity].
  apply parse_ser_ri; unfold ri_from_keys; cbn; auto; apply He.
Qed.
Print Assumptions C27_generated_identity_parses.

Example C27_ex :
  exists d, parse_dest toy (ser_dest (dest_new toy (repeat 5 352) (repeat 7 32)) ++ [9; 9])
            = Some (d, [9; 9]) /\ length (d_serialized d) = 391%nat.
Proof. eexists. split; vm_compute; reflexivity. Qed.
(** A DSA destination with a null certificate. *)
Example C27_ex_dsa :
  exists d, parse_dest toy (repeat 5 384 ++ [0; 0; 0; 42]) = Some (d, [42]) /\
            d_key d = Dsa (repeat 5 128).
Proof. eexists. split; vm_compute; reflexivity. Qed.

(** ** C28: lease sets *)
Theorem C28_lease_set_roundtrip :
  forall e, ext_ok e -> forall priv l rest, ls_ok e priv l ->
    parse_ls e (ser_ls e priv l ++ rest) = Some (on_the_wire l, rest).
Proof. exact parse_ser_ls. Qed.
Print Assumptions C28_lease_set_roundtrip.

Theorem C28_lease_set_authentic :
  forall e i l rest, parse_ls e i = Some (l, rest) ->
    (1 <= length (ls_leases l) <= 16)%nat /\ ls_keys l <> [] /\
    exists signed sg, i = signed ++ sg ++ rest /\
      (exists tl, signed = ser_dest (h_dest (ls_header' l)) ++ tl) /\
      match h_offline (ls_header' l) with
      | None => verify e (d_key (h_dest (ls_header' l))) (3 :: signed) sg = true
      | Some k =>
          verify e k (3 :: signed) sg = true /\
          exists cert sgc pk, verify e (d_key (h_dest (ls_header' l))) cert sgc = true /\
            (k = Ed25519 pk \/ k = P256 pk) /\ exists hd, cert = hd ++ pk /\ length hd = 6%nat
      end.
Proof. exact parse_ls_inv. Qed.
Print Assumptions C28_lease_set_authentic.

Theorem C28_lease_roundtrip :
  forall l rest, length (l_router l) = 32%nat -> l_tunnel l < 2 ^ 32 -> l_expires_ms l < 2 ^ 64 ->
    parse_lease (ser_lease l ++ rest) = Some (l, rest).
Proof. exact ser_lease_parse. Qed.
Print Assumptions C28_lease_roundtrip.

(** Re-serializing a parsed lease set does not keep its meaning: [expires] is absolute after
    parsing but is written as a 16-bit offset. *)
Definition toy_ls : lease_set :=
  mkLs (mkLsh (dest_new toy (repeat 5 352) (ed_public toy [1; 2])) 600 None 1700000000 false)
       [repeat 3 32] [mkLease (repeat 8 32) 77 1700000600123; mkLease (repeat 9 32) 78 1700000500000].
Lemma toy_ls_ok : ls_ok toy [1; 2] toy_ls.
Proof.
  split; [intros r; apply dest_new_parses; vm_compute; reflexivity|].
  split; [vm_compute; reflexivity|]. split; [vm_compute; reflexivity|].
  split; [vm_compute; reflexivity|]. split; [split; vm_compute; repeat constructor|].
  split; [apply Forall_cons; [reflexivity|apply Forall_nil]|].
  split; [split; vm_compute; repeat constructor|].
  apply Forall_cons; [|apply Forall_cons; [|apply Forall_nil]];
    (split; [reflexivity|]); split; vm_compute; reflexivity.
Qed.
Theorem C28_refuted_reserialize :
  exists priv l, ls_ok toy priv l /\
    exists l', parse_ls toy (ser_ls toy priv (on_the_wire l)) = Some (l', []) /\
    h_expires (ls_header' l') <> h_expires (ls_header' (on_the_wire l)).
Proof.
  exists [1; 2], toy_ls. split.
  - exact toy_ls_ok.
  - eexists. split; [vm_compute; reflexivity|]. vm_compute. discriminate.
Qed.
Print Assumptions C28_refuted_reserialize.

Example C28_ex : ls_ok toy [1; 2] toy_ls.
Proof. exact toy_ls_ok. Qed.

(** ** C29: router infos *)
Theorem C29_router_info_roundtrip :
  forall e, ext_ok e -> forall priv r nid net c,
    rinfo_ok e priv r -> mget s_caps (rf_options r) = Some c ->
    mget s_netid (rf_options r) = Some nid -> parse_dec 255 nid = Some net ->
    exists b, ser_rinfo e priv r = Some b /\
      exists rest, parse_rinfo e b =
        Some (mkRinfo (rf_identity r) (rf_published r)
                (option_map (published_address e) (rf_ntcp2 r))
                (option_map (published_address e) (rf_ssu2 r))
                (rf_options r) (parse_caps c) net, rest).
Proof. exact parse_ser_rinfo. Qed.
Print Assumptions C29_router_info_roundtrip.

Theorem C29_router_info_authentic :
  forall e i r rest, bytes_ok i -> parse_rinfo e i = Some (r, rest) ->
    exists body sg, i = body ++ sg /\ length sg = 64%nat /\
      verify e (Ed25519 (ri_signing (rf_identity r))) body sg = true /\
      exists tl, body = ser_ri (rf_identity r) ++ tl.
Proof. exact parse_rinfo_signed. Qed.
Print Assumptions C29_router_info_authentic.

(** Serializing panics exactly when there is no address. *)
Theorem C29_serialize_panics_iff_no_address :
  forall e priv r, ser_rinfo e priv r = None <-> rf_ntcp2 r = None /\ rf_ssu2 r = None.
Proof.
  intros. unfold ser_rinfo, ser_rinfo_body.
  destruct (rf_ntcp2 r), (rf_ssu2 r); split; intros H; try discriminate; auto; destruct H; discriminate.
Qed.
Print Assumptions C29_serialize_panics_iff_no_address.

Definition toy_ri : router_identity := ri_from_keys toy [4] [1; 2] (repeat 6 320).
Definition toy_opts : list (list N * list N) := [(s_caps, [76; 82]); (s_netid, [50])].
Definition toy_addr : router_address :=
  mkRa 10 0 Ntcp2 [(s_host, [49; 46; 50]); (s_port, [56; 48])] None.
Definition toy_rinfo : router_info :=
  mkRinfo toy_ri 1700000000000 (Some toy_addr) None toy_opts (parse_caps [76; 82]) 2.
Example C29_ex :
  rinfo_ok toy [1; 2] toy_rinfo /\ mget s_caps (rf_options toy_rinfo) = Some [76; 82] /\
  mget s_netid (rf_options toy_rinfo) = Some [50] /\ parse_dec 255 [50] = Some 2.
Proof.
  assert (S : forall a b, Forall (fun c => c < 128) a -> Forall (fun c => c < 128) b ->
     (length a <= 255)%nat -> (length b <= 255)%nat -> str_ok (fst (a, b)) /\ str_ok (snd (a, b))).
  { intros. split; apply ascii_ok; auto. }
  split; [|vm_compute; auto].
  split. { repeat apply conj; vm_compute; reflexivity. }
  split. { vm_compute. reflexivity. }
  split.
  { split; [reflexivity|]. split; [vm_compute; reflexivity|]. split; [vm_compute; reflexivity|].
    split.
    { apply Forall_cons; [|apply Forall_cons; [|apply Forall_nil]];
        apply S; cbn; try lia; repeat constructor. }
    split; [|vm_compute; reflexivity].
    constructor; [|]. { constructor; constructor. } constructor; [reflexivity|constructor]. }
  split. { exact I. }
  split.
  { apply Forall_cons; [|apply Forall_cons; [|apply Forall_nil]];
      apply S; cbn; try lia; repeat constructor. }
  split; [|vm_compute; reflexivity].
  constructor; [|]. { constructor; constructor. } constructor; [reflexivity|constructor].
Qed.
