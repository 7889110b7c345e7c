(** C13, C50: what the tunnels deliver. *)
From Coq Require Import List NArith Bool Arith Lia ZArith ZifyBool ZifyNat ZifyN Permutation.
From Verif Require Import ListUtil Bytes NMap PrimModel PrimProps EncModel I2npModel I2npSpec I2npProofs
  TunnelModel TunnelSpec TunnelProofs TunnelProofs2 TunnelProofs3.
Import ListNotations.
Open Scope N_scope.

(** SHA-256 digests have at least four bytes. *)
Definition digest_ok (e : ext) : Prop := forall b, (4 <= length (sha256 e b))%nat.
Definition toy_fast : ext :=
  mkExt (ed_valid toy) (p256_valid toy) (dsa_valid toy) (verify toy) (ed_sign toy) (ed_public toy)
    (x_public toy) (fun m => firstn 32 (m ++ repeat 0 32)) (parse_ip toy).
Lemma toy_digest : digest_ok toy_fast.
Proof. intros b. cbn [toy_fast sha256]. rewrite firstn_length, app_length, repeat_length. lia. Qed.

(** ** C13: fragmentation and reassembly *)
(** Every tunnel data message has the same size. *)
Theorem C13_messages_are_1028_bytes :
  forall e s, digest_ok e -> sent_ok s -> Forall (fun w => length w = 1028%nat) (wires e s).
Proof. exact (fun e s H => wires_1028 e H s). Qed.
Print Assumptions C13_messages_are_1028_bytes.

(** Fragments of any number of messages, in any order, interleaved, lost or duplicated: each
    arrival delivers nothing, except that it delivers its own message, unchanged, when it
    completes it. *)
Theorem C13_reassembly :
  forall e ss arr, digest_ok e -> Forall sent_ok ss -> NoDup (map s_id ss) ->
    Forall (is_fragment e ss) arr ->
    receive e [] (map (fragment_of e ss) arr) =
    Some (map (fun o => match o with Some j => [arrived (nth j ss no_sent)] | None => [] end)
            (expected (fragment_count e ss) [] arr)).
Proof.
  intros e ss arr He Hok Hid Ha.
  exact (receive_spec e He ss Hok Hid arr [] [] (Inv_start e ss) Ha).
Qed.
Print Assumptions C13_reassembly.

Lemma concat_somes {A} (f : nat -> A) l :
  concat (map (fun o => match o with Some j => [f j] | None => [] end) l) = map f (somes l).
Proof. induction l as [|[j|] l IH]; cbn [map concat somes flat_map app]; [reflexivity| |]; rewrite IH; reflexivity. Qed.

(** Without duplicates, exactly the messages all of whose fragments arrived are delivered,
    each once. *)
Theorem C13_exactly_once :
  forall e ss arr, digest_ok e -> Forall sent_ok ss -> NoDup (map s_id ss) ->
    Forall (is_fragment e ss) arr -> NoDup arr ->
    exists outs order,
      receive e [] (map (fragment_of e ss) arr) = Some outs /\
      concat outs = map (fun j => arrived (nth j ss no_sent)) order /\
      NoDup order /\
      forall j, In j order <->
        (j < length ss)%nat /\ forall i, (i < fragment_count e ss j)%nat -> In (j, i) arr.
Proof.
  intros e ss arr He Hok Hid Ha Hnd.
  assert (Hpos : forall j, (0 < fragment_count e ss j)%nat).
  { intros j. unfold fragment_count. rewrite wires_length. destruct (fragmented e _); lia. }
  eexists. exists (somes (expected (fragment_count e ss) [] arr)).
  rewrite (C13_reassembly e ss arr He Hok Hid Ha).
  destruct (expected_once (fragment_count e ss) arr [] (fun j _ => Hpos j) Hnd (fun x Hx => match Hx with end)) as [N1 N2].
  refine (conj eq_refl (conj _ (conj N1 _))).
  - apply concat_somes.
  - intros j. rewrite N2, app_nil_r, all_here_In. split.
    + intros [[i Hi] H]. split; [|exact H]. rewrite Forall_forall in Ha. destruct (Ha _ Hi) as [X _]. exact X.
    + intros [_ H]. split; [exists 0%nat; apply H, Hpos|exact H].
Qed.
Print Assumptions C13_exactly_once.

(** One message: whatever the order of its fragments, it comes out once, unchanged. *)
Theorem C13_any_order :
  forall e s ws, digest_ok e -> sent_ok s -> Permutation ws (wires e s) ->
    exists outs, receive e [] ws = Some outs /\ concat outs = [arrived s].
Proof.
  intros e s ws He Hs HP.
  assert (E : wires e s = map (fragment_of e [s]) (map (pair O) (seq 0 (length (wires e s))))).
  { rewrite map_map. unfold fragment_of. cbn [fst snd nth].
    generalize (wires e s). intros l. induction l as [|x l IH]; [reflexivity|].
    cbn [length seq map nth]. f_equal. rewrite IH at 1. rewrite <- seq_shift, map_map. reflexivity. }
  rewrite E in HP. apply Permutation_map_inv in HP as (arr & -> & HP).
  assert (Hin : forall x, In x arr <-> exists i, x = (O, i) /\ (i < length (wires e s))%nat).
  { intros x. split.
    - intros Hx. apply (Permutation_in _ (Permutation_sym HP)) in Hx. apply in_map_iff in Hx as (i & <- & Hi).
      apply in_seq in Hi. exists i. split; [reflexivity|lia].
    - intros (i & -> & Hi). apply (Permutation_in _ HP). apply in_map, in_seq. lia. }
  destruct (C13_exactly_once e [s] arr He) as (outs & order & R & C & Nd & Ho).
  - constructor; [exact Hs|constructor].
  - cbn. constructor; [easy|constructor].
  - apply Forall_forall. intros x Hx. apply Hin in Hx as (i & -> & Hi). split; cbn; [lia|exact Hi].
  - apply (Permutation_NoDup HP). apply FinFun.Injective_map_NoDup; [|apply seq_NoDup].
    intros a b Hab. congruence.
  - exists outs. split; [exact R|]. rewrite C.
    assert (order = [O]) as ->; [|reflexivity].
    assert (H0 : In O order).
    { apply Ho. split; [cbn; lia|]. intros i Hi. apply Hin. now exists i. }
    destruct order as [|a order]; [easy|]. destruct order as [|b order].
    + destruct H0 as [->|H0]; [reflexivity|easy].
    + assert (a = O) by (assert (X : In a (a :: b :: order)) by (now left); apply Ho in X as [X _]; cbn in X; lia).
      assert (b = O) by (assert (X : In b (a :: b :: order)) by (right; now left); apply Ho in X as [X _]; cbn in X; lia).
      subst. inversion Nd as [|? ? Hn]; subst. exfalso. apply Hn. now left.
Qed.
Print Assumptions C13_any_order.

(** *** Examples *)
Definition toy_rnd (k : nat) : bytes * N := (repeat (N.of_nat k + 1) 16, 77).
Definition toy_pad : bytes := repeat 3 1028.
(** 2500 bytes for a tunnel, three fragments *)
Definition toy_s1 : sent :=
  mkSent (mkMsg Garlic 9 (5 * 1000000000) (repeat 7 2484)) (DTunnel 11 (repeat 8 32)) 5 100 toy_rnd toy_pad.
(** 1200 bytes for a router, two fragments; and a short one *)
Definition toy_s2 : sent :=
  mkSent (mkMsg Data 10 (6 * 1000000000) (repeat 0 1184)) (DRouter (repeat 9 32)) 5 101 toy_rnd toy_pad.
Definition toy_s3 : sent :=
  mkSent (mkMsg DeliveryStatus 11 (7 * 1000000000) [1; 2; 3]) DLocal 5 102 toy_rnd toy_pad.
Lemma toy_pad_ok : length toy_pad = 1028%nat /\ ~ In 0 toy_pad.
Proof.
  unfold toy_pad. split; [apply repeat_length|]. intros H. apply repeat_spec in H. discriminate.
Qed.
Lemma toy_sent_ok : Forall sent_ok [toy_s1; toy_s2; toy_s3].
Proof.
  pose proof toy_pad_ok as [P1 P2].
  repeat (apply Forall_cons || apply Forall_nil); unfold sent_ok, toy_s1, toy_s2, toy_s3;
    cbn [s_msg s_to s_tunnel s_id s_rnd s_pad m_id m_expiration m_payload target_ok];
    rewrite ?repeat_length; unfold hash_ok, tunnel_max; cbn [delivery_len]; rewrite ?repeat_length;
    (repeat apply conj; try reflexivity; try exact P1; try exact P2; try (cbn [length]; lia);
     intros; unfold toy_rnd; cbn [fst]; apply repeat_length).
Qed.
Definition toy_arr : list (nat * nat) := [(0, 2); (1, 1); (2, 0); (0, 0); (1, 0); (0, 1)]%nat.
Example C13_nonvacuous :
  Forall (is_fragment toy_fast [toy_s1; toy_s2; toy_s3]) toy_arr /\ NoDup toy_arr /\
  NoDup (map s_id [toy_s1; toy_s2; toy_s3]) /\
  map (fragment_count toy_fast [toy_s1; toy_s2; toy_s3]) [0; 1; 2]%nat = [3; 2; 1]%nat /\
  expected (fragment_count toy_fast [toy_s1; toy_s2; toy_s3]) [] toy_arr =
    [None; None; Some 2; None; Some 1; Some 0]%nat.
Proof.
  assert (C : map (fragment_count toy_fast [toy_s1; toy_s2; toy_s3]) [0; 1; 2]%nat = [3; 2; 1]%nat) by (vm_compute; reflexivity).
  assert (C0 : fragment_count toy_fast [toy_s1; toy_s2; toy_s3] 0 = 3%nat) by (cbn [map] in C; congruence).
  assert (C1 : fragment_count toy_fast [toy_s1; toy_s2; toy_s3] 1 = 2%nat) by (cbn [map] in C; congruence).
  assert (C2 : fragment_count toy_fast [toy_s1; toy_s2; toy_s3] 2 = 1%nat) by (cbn [map] in C; congruence).
  refine (conj _ (conj _ (conj _ (conj C _)))).
  - unfold toy_arr. repeat (apply Forall_cons || apply Forall_nil); split; cbn [fst snd length]; try lia;
      rewrite ?C0, ?C1, ?C2; lia.
  - unfold toy_arr. repeat (constructor; [cbn; intuition congruence|]). constructor.
  - cbn. repeat (constructor; [cbn; intuition discriminate|]). constructor.
  - unfold toy_arr. cbn [expected]. rewrite C0, C1, C2. reflexivity.
Qed.

(** The fragment number has six bits: a message that needs 64 follow-on fragments (63,746
    bytes or more with local delivery), which the I2NP format allows, is sent but never
    delivered, even when every fragment arrives in order. *)
Definition big_sent : sent :=
  mkSent (mkMsg Data 10 (6 * 1000000000) (repeat 0 63740)) DLocal 5 101 toy_rnd toy_pad.
Theorem C13_refuted_large_message_never_delivered :
  exists s, N.of_nat (length (m_payload (s_msg s))) <= 65535 /\
    length (wires toy_fast s) = 65%nat /\
    option_map (fun outs => concat outs) (receive toy_fast [] (wires toy_fast s)) = Some [].
Proof.
  exists big_sent. repeat apply conj.
  - unfold big_sent. cbn [s_msg m_payload]. rewrite repeat_length. vm_compute. discriminate.
  - vm_compute. reflexivity.
  - vm_compute. reflexivity.
Qed.
Print Assumptions C13_refuted_large_message_never_delivered.

(** ** C50: layered encryption *)
(** Through any number of participants, the endpoint of an outbound tunnel sees exactly what
    its creator put in. *)
Theorem C50_outbound_layers_cancel :
  forall e c parts last h w, aes_ok c -> length w = 1028%nat ->
    outbound_tunnel e c parts last h w = clear_endpoint e h w.
Proof. intros e c parts last h w Hc. exact (outbound_layers c Hc e parts last h w). Qed.
Print Assumptions C50_outbound_layers_cancel.

(** The creator of an inbound tunnel sees exactly what the gateway put in. *)
Theorem C50_inbound_layers_cancel :
  forall e c first parts h w, aes_ok c -> length w = 1028%nat ->
    inbound_tunnel e c first parts h (inbound_gateway c first w) = clear_endpoint e h w.
Proof. intros e c first parts h w Hc. exact (inbound_layers c Hc e first parts h w). Qed.
Print Assumptions C50_inbound_layers_cancel.

Lemma receive_outbound e c parts last h ws : aes_ok c -> Forall (fun w => length w = 1028%nat) ws ->
  receive_by (outbound_tunnel e c parts last) h ws = receive e h ws.
Proof.
  intros Hc Hw. apply receive_by_ext. intros h' w Hin. apply C50_outbound_layers_cancel; auto.
  rewrite Forall_forall in Hw. auto.
Qed.
Lemma receive_inbound e c first parts ws : aes_ok c -> Forall (fun w => length w = 1028%nat) ws -> forall h,
  receive_by (inbound_tunnel e c first parts) h (map (inbound_gateway c first) ws) = receive e h ws.
Proof.
  intros Hc. unfold receive. induction ws as [|w ws IH]; intros Hw h; [reflexivity|].
  inversion Hw; subst. cbn [map receive_by]. rewrite C50_inbound_layers_cancel by auto.
  destruct (clear_endpoint e h w) as [[h' o]|]; [|reflexivity]. now rewrite IH.
Qed.

(** The whole way of one message: through the outbound tunnel of its sender (fragments in any
    order), on to the gateway of the receiver's inbound tunnel, through that tunnel (again in
    any order), to the receiver. *)
Theorem C50_end_to_end :
  forall e c s t router parts last ws,
    digest_ok e -> aes_ok c -> sent_ok s -> s_to s = DTunnel t router ->
    Permutation ws (wires e s) ->
    exists outs x,
      receive_by (outbound_tunnel e c parts last) [] ws = Some outs /\ concat outs = [x] /\
      forall now r, now <= whole_millis (m_expiration (s_msg s)) ->
        now + 8 * 1000000000 < 1000000000 * 2 ^ 32 -> r < 2 ^ 32 ->
        exists b gm g,
          outbound_deliver e now r x = Some (router, b) /\
          parse_short b = Some (gm, []) /\ m_type gm = TunnelGateway /\
          parse_gateway (m_payload gm) = Some (g, []) /\ tg_id g = t /\
          forall now' k next id rnd pad parts',
            now' <= whole_millis (m_expiration (s_msg s)) -> next < 2 ^ 32 -> id < 2 ^ 32 ->
            (forall i, length (fst (rnd i)) = 16%nat) -> length pad = 1028%nat -> ~ In 0 pad ->
            exists ps,
              gateway_messages e c k next now' (tg_payload g) id rnd pad = Some ps /\
              forall ps', Permutation ps' ps ->
                exists outs', receive_by (inbound_tunnel e c k parts') [] ps' = Some outs' /\
                  map inbound_deliver (concat outs') = [Some (fst (arrived s))].
Proof.
  intros e c s t router parts last ws He Hc Hs Hto HP.
  assert (Hlen : Forall (fun w => length w = 1028%nat) ws).
  { pose proof (C13_messages_are_1028_bytes e s He Hs) as X. rewrite Forall_forall in *.
    intros w Hw. apply X. now apply (Permutation_in _ HP). }
  destruct (C13_any_order e s ws He Hs HP) as (outs & R & C).
  exists outs, (arrived s). rewrite receive_outbound by auto.
  refine (conj R (conj C _)). intros now r Hnow Hnow' Hr.
  destruct Hs as (H1 & H2 & H3 & H4 & H5 & H6 & H7 & H8 & H9 & H10 & H11).
  rewrite Hto in H5, H6. destruct H6 as [Ht Hh].
  set (m := fst (arrived s)).
  assert (Wle : forall y, whole_millis y <= y) by (intros y; unfold whole_millis; lia).
  assert (Wid : forall y, whole_millis (whole_millis y) = whole_millis y).
  { intros y. rewrite <- !whole_millis_eq. now rewrite ms_of_ms. }
  assert (Hmx : m_expiration m = whole_millis (m_expiration (s_msg s))) by reflexivity.
  assert (Hmid : m_id m = m_id (s_msg s)) by reflexivity.
  assert (Hmp : m_payload m = m_payload (s_msg s)) by reflexivity.
  assert (Lstd : length (build_standard e m) = (16 + length (m_payload (s_msg s)))%nat).
  { pose proof (build_standard_length e m) as X. unfold len_long, len in X. rewrite Hmp in X. lia. }
  assert (Hcap : N.of_nat (16 + length (m_payload (s_msg s))) <= 63708) by (unfold tunnel_max in H5; cbn [delivery_len] in H5; lia).
  set (g := mkTg t (build_standard e m)).
  set (gm := mkMsg TunnelGateway r (now + of_secs 8) (ser_gateway g)).
  assert (Lg : length (ser_gateway g) = (22 + length (m_payload (s_msg s)))%nat).
  { unfold ser_gateway. rewrite !app_length, !be_bytes_length. cbn [g tg_payload]. lia. }
  exists (build_short gm), (mkMsg TunnelGateway r (whole_seconds (now + of_secs 8)) (ser_gateway g)), g.
  refine (conj _ (conj _ (conj eq_refl (conj _ (conj eq_refl _))))).
  - unfold outbound_deliver, arrived. rewrite Hto. fold (fst (arrived s)). unfold msg_expired.
    cbn [m_expiration]. destruct (N.ltb_spec (whole_millis (m_expiration (s_msg s))) now); [lia|]. reflexivity.
  - pose proof (short_roundtrip gm []) as X. rewrite app_nil_r in X. apply X; cbn [gm m_id m_expiration m_payload].
    + exact Hr.
    + unfold of_secs. lia.
    + rewrite Lg. lia.
    + rewrite Lg. lia.
  - pose proof (gateway_roundtrip g []) as X. rewrite app_nil_r in X. apply X; cbn [g tg_id tg_payload].
    + exact Ht.
    + unfold len. rewrite ?Lstd. lia.
  - intros now' k next id rnd pad parts' Hn Hnx Hid Hrnd Lpad Hpad.
    set (s2 := mkSent m DLocal next id rnd pad).
    assert (Hs2 : sent_ok s2).
    { unfold sent_ok, s2. cbn [s_msg s_to s_tunnel s_id s_rnd s_pad target_ok].
      rewrite Hmx, Hmid, Hmp. pose proof (Wle (m_expiration (s_msg s))).
      repeat apply conj; auto; try lia. unfold tunnel_max. cbn [delivery_len]. lia. }
    assert (Ea : arrived s2 = (m, DLocal)).
    { unfold arrived, s2. cbn [s_msg s_to]. rewrite Hmx, Wid. rewrite <- Hmx. now destruct m. }
    exists (map (inbound_gateway c k) (wires e s2)). split.
    + unfold gateway_messages. cbn [g tg_payload].
      pose proof (parse_body e s2 Hs2) as P. unfold body in P. cbn [s2 s_msg] in P. fold s2 in P. rewrite P.
      rewrite Ea. cbn [fst]. unfold msg_expired. rewrite Hmx.
      destruct (N.ltb_spec (whole_millis (m_expiration (s_msg s))) now'); [lia|]. reflexivity.
    + intros ps' HP'. apply Permutation_map_inv in HP' as (ws2 & -> & HP2).
      assert (Hlen2 : Forall (fun w => length w = 1028%nat) ws2).
      { pose proof (C13_messages_are_1028_bytes e s2 He Hs2) as X. rewrite Forall_forall in *.
        intros w Hw. apply X. now apply (Permutation_in _ (Permutation_sym HP2)). }
      rewrite receive_inbound by auto.
      destruct (C13_any_order e s2 ws2 He Hs2 (Permutation_sym HP2)) as (outs' & R' & C').
      exists outs'. split; [exact R'|]. rewrite C', Ea. reflexivity.
Qed.
Print Assumptions C50_end_to_end.

(** A router-delivered message reaches that router as a normal message. *)
Theorem C50_router_delivery :
  forall e s router now r,
    sent_ok s -> s_to s = DRouter router -> m_expiration (s_msg s) < 1000000000 * 2 ^ 32 ->
    now <= whole_millis (m_expiration (s_msg s)) ->
    exists b, outbound_deliver e now r (arrived s) = Some (router, b) /\
      parse_short b = Some (mkMsg (m_type (s_msg s)) (m_id (s_msg s))
        (whole_seconds (whole_millis (m_expiration (s_msg s)))) (m_payload (s_msg s)), []).
Proof.
  intros e s router now r (H1 & H2 & H3 & H4 & H5 & H6 & _) Hto Hx Hn.
  unfold outbound_deliver, arrived. rewrite Hto. unfold msg_expired. cbn [m_expiration].
  destruct (N.ltb_spec (whole_millis (m_expiration (s_msg s))) now); [lia|].
  eexists. split; [reflexivity|].
  rewrite <- (app_nil_r (build_short _)). rewrite short_roundtrip; cbn [m_id m_type m_expiration m_payload]; auto.
  - unfold whole_millis. lia.
  - rewrite Hto in H5. unfold tunnel_max in H5. cbn [delivery_len] in H5. lia.
Qed.
Print Assumptions C50_router_delivery.

(** A toy cipher that meets the assumptions: XOR with the first key byte. *)
Definition toy_xor (k d : bytes) : bytes := map (N.lxor (hd 0 k)) d.
Definition toy_aes : aes := mkAes toy_xor toy_xor (fun k iv d => toy_xor k (toy_xor iv d)) (fun k iv d => toy_xor iv (toy_xor k d)).
Lemma toy_xor_twice k d : toy_xor k (toy_xor k d) = d.
Proof.
  unfold toy_xor. rewrite map_map. rewrite <- (map_id d) at 2. apply map_ext. intros x.
  now rewrite <- N.lxor_assoc, N.lxor_nilpotent, N.lxor_0_l.
Qed.
Example C50_aes_nonvacuous : aes_ok toy_aes.
Proof.
  split.
  - intros k b H. cbn [toy_aes ecb_enc ecb_dec]. rewrite toy_xor_twice. unfold toy_xor. rewrite map_length. auto.
  - intros k iv d Hi [n Hn]. cbn [toy_aes cbc_enc cbc_dec]. rewrite !toy_xor_twice.
    repeat apply conj; try reflexivity; unfold toy_xor; now rewrite !map_length.
Qed.
Definition k1 := mkHop [1] [2]. Definition k2 := mkHop [5] [6]. Definition k3 := mkHop [9] [12].
Example C50_nonvacuous :
  outbound_prepare toy_aes [k1; k2; k3] (hd [] (wires toy_fast toy_s3)) <> hd [] (wires toy_fast toy_s3) /\
  option_map snd (outbound_tunnel toy_fast toy_aes [(k1, 71); (k2, 72)] k3 [] (hd [] (wires toy_fast toy_s3))) =
    Some [arrived toy_s3].
Proof. split; [vm_compute; discriminate|vm_compute; reflexivity]. Qed.
