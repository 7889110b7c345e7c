(** Property theorems C60 to C66 (SSU2 handshake). *)
From Coq Require Import String List NArith Bool Arith Lia ZifyBool ZifyNat ZifyN.
From Verif Require Import ListUtil Bytes NMap PrimModel PrimSpec PrimProps I2npModel EncModel NoiseModel NoiseToy Ntcp2Model Ssu2Model Ssu2Proofs2
  RouteProofs HandshakeModel HandshakeSpec HandshakeProofs HandshakeProps
  Ssu2HsModel Ssu2HsSpec Ssu2HsProofs Ssu2HsProofs2 Ssu2HsProofs3 Ssu2HsProofs4 Ssu2HsProofs5.
Import ListNotations.
Open Scope N_scope.

(** ** C60 *)
(** [A] dials [B] with what [B] publishes, every datagram arrives once, and none of the two
    replies is mistaken for something else.  Then both sides report the session, [B] for the
    router of the router info [A] presents; each sends to the connection id the other one listens
    on; and what one side sends with is what the other one receives with. *)
Theorem C60_key_agreement :
  forall c ks A B rA rB aA aB src dst r1 r2 r3 r4 r5 r6 t1 t2 t3 t4 t5 t6 t7,
    primitives_ok c -> stream_ok ks -> publishes c rB B aB ->
    parse_info c (us_info A) = Some rA -> ssu2_intro_key rA = Some (us_intro A) ->
    (3 <= length (us_info A) <= 1963)%nat -> src < 2 ^ 64 -> dst < 2 ^ 64 -> addr_ok aA ->
    rnd_ok r1 -> rnd_ok r2 -> rnd_ok r3 -> rnd_ok r4 -> nget dst (us_sessions B) = None ->
  exists A1 p1, connect c ks A rB src dst r1 t1 = Some (A1, [(aB, p1)], []) /\
  exists B1 p2, on_datagram c ks B r2 t2 aA p1 = Some (B1, [(aA, p2)], []) /\
  (~ mistaken ks A1 p2 ->
  exists A2 p3, on_datagram c ks A1 r3 t3 aB p2 = Some (A2, [(aB, p3)], []) /\
  exists B2 p4, on_datagram c ks B1 r4 t4 aA p3 = Some (B2, [(aA, p4)], []) /\
  (~ mistaken ks A2 p4 ->
  exists A3 p5, on_datagram c ks A2 r5 t5 aB p4 = Some (A3, [(aB, p5)], []) /\
  exists B3 p6, on_datagram c ks B2 r6 t6 aA p5 =
                Some (B3, [(aA, p6)], [Established true (ri_hash (rf_identity rA))]) /\
  exists A4 name, on_datagram c ks A3 r6 t7 aB p6 = Some (A4, [], [Established false name]) /\
  exists xa xb, active A4 src xa /\ active B3 dst xb /\
    sc_addr xa = aB /\ sc_addr xb = aA /\ sc_dst xa = dst /\ sc_dst xb = src /\
    sc_router xb = ri_hash (rf_identity rA) /\
    send_keys xa = recv_keys B3 xb /\ send_keys xb = recv_keys A4 xa)).
Proof.
  intros c ks A B rA rB aA aB src dst r1 r2 r3 r4 r5 r6 t1 t2 t3 t4 t5 t6 t7 P K Pb Hr Hk Hi Hs Hd Ha O1 O2 O3 O4 Hg.
  exists (A1 c ks A B aB src dst r1 t1), (p1 c ks B src dst r1). split; [now apply (connect_run c ks P K A B rB)|].
  exists (B1 c B aA src dst r2), (p2 c ks B aA src dst r2). split; [now apply first_run|]. intros M1.
  set (tok := tok2 r2). assert (Lt : length tok = 8%nat) by apply le_bytes_length.
  set (a2 := A2 c ks A B aB src dst r2 r3 (A1 c ks A B aB src dst r1 t1) t3).
  exists a2, (p3 c ks B src dst r3 tok). split; [now apply retry_run|].
  set (b2 := B2 c ks B aA src dst r3 r4 (B1 c B aA src dst r2) tok t4).
  exists b2, (p4 c ks B aA src dst r3 r4 tok). split; [now apply request_run|]. intros M2.
  set (a3 := A3 c ks A B aA aB src dst r3 r4 a2 tok t5).
  exists a3, (p5 c ks A B aA src dst r3 r4 tok). split.
  { apply (created_run c ks P K A B aA aB src dst r3 r4 Hs Hd Ha O4 a2 t3 t5 tok); [apply nget_with|apply lookup_head|exact Lt|lia|exact M2]. }
  destruct (confirmed_run c ks P K A B rA aA src dst r3 r4 Hs Hd b2 aA r6 t4 t6 tok (us_intro A) eq_refl) as (p6 & Hb & E6);
    [apply nget_with|exact Hi|exact Hr|exact Hk|].
  eexists. exists p6. split; [exact E6|]. eexists. exists (us_router A). split.
  { apply (ack_run c ks P K A B rA aA aB src dst r3 r4 Hs Hd a3 aB r6 t5 t7 tok (us_intro A) p6 eq_refl); [apply nget_with|exact Hb]. }
  eexists. eexists. split; [apply nget_with|]. split; [apply nget_with|]. repeat split.
Qed.
Print Assumptions C60_key_agreement.

Lemma some_eq {X} (a b : X) : Some a = Some b -> a = b. Proof. congruence. Qed.
(** The sessions that follow carry packets: whatever a session [x] with the same keys builds is
    handed to the session it is meant for, which reads what was sent. *)
Theorem C60_packets_follow :
  forall c ks u id x y, primitives_ok c -> stream_ok ks -> active u id y ->
    sc_dst x = id -> id < 2 ^ 64 -> send_keys x = recv_keys u y ->
  forall num payload d r now a, num < 2 ^ 32 ->
    build_packet (session_crypt c) (fun k iv => ks k iv 8%nat) (send_keys x) (sc_dst x) num payload = Some d ->
    (length d <= 2048)%nat ->
    exists d', on_datagram c ks u r now a d = Some (u, [], [ToSession id d']) /\
      open_packet (x_ext (h_ops c)) (session_crypt c) (fun k iv => ks k iv 8%nat) (recv_keys u y) d' =
      match s_parse (x_ext (h_ops c)) payload with Some bs => Some (num, bs) | None => None end.
Proof.
  intros c ks u id x y P K Hy Hx Hid Hk num payload d r now a Hn Hb Hl.
  assert (Hks : forall k iv, length (ks k iv 8%nat) = 8%nat) by (intros; apply K).
  destruct (packet_opens (x_ext (h_ops c)) (session_crypt c) (fun k iv => ks k iv 8%nat) (session_aead c P)
              (send_keys x) (sc_dst x) num payload d ltac:(rewrite Hx; exact Hid) Hn Hb) as (d' & H1 & _ & H3).
  rewrite Hk in H1, H3. rewrite Hx in H1. exists d'. split; [|exact H3].
  unfold socket_header in H1. cbn [recv_keys k_intro] in H1. unfold on_datagram. rewrite firstn_all2 by lia. unfold reader_new.
  destruct (Nat.ltb_spec (length d) 24); [discriminate|]. cbv zeta in H1. apply some_eq in H1. apply pair_equal_spec in H1 as [E1 E2].
  unfold reader_dst. cbn [hr_key hr_iv1 hr_pkt hr_iv2].
  set (m := ks (us_intro u) (firstn 12 (skipn (length d - 24) d)) 8%nat) in *.
  assert (Lf : length (firstn 8 d) = 8%nat) by (rewrite firstn_length; lia).
  assert (Em : mask_at 0 m d = d').
  { rewrite <- E2. transitivity (mask_at 0 m (firstn 8 d ++ skipn 8 d)); [now rewrite firstn_skipn|].
    apply mask_at_0. rewrite Lf. apply Hks. }
  rewrite Em. assert (Lx : length (xor8 m (firstn 8 d)) = 8%nat) by (now rewrite xor8_length).
  assert (Ef : firstn 8 d' = xor8 m (firstn 8 d)) by (rewrite <- E2, <- Lx at 1; apply firstn_exact).
  rewrite Ef, E1. unfold active in Hy. rewrite Hy. reflexivity.
Qed.
Print Assumptions C60_packets_follow.

(** A reply that, read with the dialing socket's own intro key, has one of two values (of 256)
    in the place of the message type is dropped; nothing else about it matters. *)
Theorem C60_misread_is_dropped :
  forall c ks u r now from p, stream_ok ks -> (24 <= length p <= 2048)%nat ->
    nget (le_val (firstn 8 (own_view ks u p))) (us_sessions u) = None ->
    In (nth 12 (own_view ks u p) 0) [2; 6] ->
    on_datagram c ks u r now from p = Some (u, [], []).
Proof. intros. now apply misread_dropped. Qed.
Print Assumptions C60_misread_is_dropped.

(** Two routers for the examples: key streams repeat the first byte of the key. *)
Definition toy_ks (k iv : list N) (n : nat) : list N := repeat (hd 0 k mod 256) n.
Lemma toy_ks_ok : stream_ok toy_ks.
Proof.
  intros k iv n. split; [apply repeat_length|]. apply Forall_forall. intros x H. apply repeat_spec in H. subst x. apply N.mod_lt. lia.
Qed.
Definition toy_intro (first : N) : list N := pad32 [first].
Definition ssu2_address (intro static : list N) (a : option addr) : router_address :=
  mkRa 10 0 Ssu2 [(s_key_i, base64_encode intro); (s_key_s, base64_encode static)] a.
Definition toy_A : router_info :=
  mkRinfo toy_ri 1700000000000 None (Some (ssu2_address (toy_intro 65) (pad32 [3; 4]) None)) toy_opts (parse_caps [76; 82]) 2.
Definition toy_info : list N := Eval vm_compute in match ser_rinfo toy [1; 2] toy_A with Some b => b | None => [] end.
Definition toy_B (first : N) : router_info :=
  mkRinfo toy_ri 1700000000000 None
    (Some (ssu2_address (toy_intro first) (pad32 [5; 6]) (Some ([10; 0; 0; 2], 9000)))) toy_opts (parse_caps [76; 82]) 2.
Definition sock_A : usock := mkUsock (toy_intro 65) [3; 4] toy_info [1] [] [].
Definition sock_B (first : N) : usock := mkUsock (toy_intro first) [5; 6] [] [2] [] [].
Definition addr_A : addr := ([10; 0; 0; 1], 8000).
Definition addr_B : addr := ([10; 0; 0; 2], 9000).
Definition toy_rnd (k : N) : rnd := mkRnd k [1; 2; 3] [k; 7] 77 1700000000.
Lemma toy_publishes first : In first [1; 74] -> publishes toy_hops (toy_B first) (sock_B first) addr_B.
Proof.
  intros [<-|[<-|[]]]; (split; [vm_compute; reflexivity|]; split; [vm_compute; reflexivity|]); eexists; split; reflexivity.
Qed.
Lemma toy_rnd_ok k : k < 2 ^ 32 -> rnd_ok (toy_rnd k).
Proof. intros H. repeat split; cbn; lia. Qed.
Lemma toy_parses : exists rA, parse_info toy_hops (us_info sock_A) = Some rA /\ ssu2_intro_key rA = Some (us_intro sock_A).
Proof.
  assert (E : match parse_info toy_hops toy_info with
              | Some r => match ssu2_intro_key r with Some k => beq k (toy_intro 65) | None => false end
              | None => false end = true) by (vm_compute; reflexivity).
  cbn [sock_A us_info us_intro]. destruct (parse_info toy_hops toy_info) as [r|]; [|discriminate]. exists r. split; [reflexivity|].
  destruct (ssu2_intro_key r) as [k|]; [|discriminate]. apply beq_eq in E as ->. reflexivity.
Qed.

(** A concrete case of the above that goes all the way. *)
Definition deliver (x : ustep) (k : usock -> list N -> option (list uevent)) : option (list uevent) :=
  match x with Some (u, [(_, p)], ev) => option_map (app ev) (k u p) | _ => None end.
Definition toy_run (first : N) : option (list uevent) :=
  deliver (connect toy_hops toy_ks sock_A (toy_B first) 11 22 (toy_rnd 1) 0) (fun A1 p1 =>
  deliver (on_datagram toy_hops toy_ks (sock_B first) (toy_rnd 2) 0 addr_A p1) (fun B1 p2 =>
  deliver (on_datagram toy_hops toy_ks A1 (toy_rnd 3) 0 addr_B p2) (fun A2 p3 =>
  deliver (on_datagram toy_hops toy_ks B1 (toy_rnd 4) 0 addr_A p3) (fun B2 p4 =>
  deliver (on_datagram toy_hops toy_ks A2 (toy_rnd 5) 0 addr_B p4) (fun A3 p5 =>
  deliver (on_datagram toy_hops toy_ks B2 (toy_rnd 6) 0 addr_A p5) (fun B3 p6 =>
  match on_datagram toy_hops toy_ks A3 (toy_rnd 7) 0 addr_B p6 with Some (_, [], ev) => Some ev | _ => None end)))))).
Example C60_hypotheses :
  primitives_ok toy_hops /\ stream_ok toy_ks /\ publishes toy_hops (toy_B 1) (sock_B 1) addr_B /\ addr_ok addr_A /\
  (3 <= length (us_info sock_A) <= 1963)%nat /\
  (exists rA, parse_info toy_hops (us_info sock_A) = Some rA /\ ssu2_intro_key rA = Some (us_intro sock_A)) /\
  toy_run 1 = Some [Established true (ri_hash toy_ri); Established false [1]].
Proof.
  split; [exact toy_hops_ok|]. split; [exact toy_ks_ok|]. split; [apply toy_publishes; left; reflexivity|].
  split; [split; [left; reflexivity|reflexivity]|]. split; [split; apply Nat.leb_le; vm_compute; reflexivity|].
  split; [exact toy_parses|]. vm_compute. reflexivity.
Qed.

(** A dial that fails although every datagram arrives: the reply to the token request reads, with
    the dialing socket's own key, like a packet of a session it does not have. *)
Theorem C60_reply_misread_refuted :
  exists c ks A B rA rB aA aB src dst r1 r2 A1 p1 B1 p2,
    primitives_ok c /\ stream_ok ks /\ publishes c rB B aB /\ parse_info c (us_info A) = Some rA /\
    ssu2_intro_key rA = Some (us_intro A) /\ (3 <= length (us_info A) <= 1963)%nat /\ addr_ok aA /\
    fresh A /\ fresh B /\ rnd_ok r1 /\ rnd_ok r2 /\
    connect c ks A rB src dst r1 0 = Some (A1, [(aB, p1)], []) /\
    on_datagram c ks B r2 0 aA p1 = Some (B1, [(aA, p2)], []) /\
    forall r now, on_datagram c ks A1 r now aB p2 = Some (A1, [], []).
Proof.
  destruct toy_parses as (rA & Hp & Hk).
  set (A1' := A1 toy_hops toy_ks sock_A (sock_B 74) addr_B 11 22 (toy_rnd 1) 0).
  set (p2' := p2 toy_hops toy_ks (sock_B 74) addr_A 11 22 (toy_rnd 2)).
  exists toy_hops, toy_ks, sock_A, (sock_B 74), rA, (toy_B 74), addr_A, addr_B, 11, 22, (toy_rnd 1), (toy_rnd 2),
    A1', (p1 toy_hops toy_ks (sock_B 74) 11 22 (toy_rnd 1)), (B1 toy_hops (sock_B 74) addr_A 11 22 (toy_rnd 2)), p2'.
  split; [exact toy_hops_ok|]. split; [exact toy_ks_ok|]. split; [apply toy_publishes; right; left; reflexivity|].
  split; [exact Hp|]. split; [exact Hk|]. split; [split; apply Nat.leb_le; vm_compute; reflexivity|].
  split; [split; [left; reflexivity|reflexivity]|]. split; [split; reflexivity|]. split; [split; reflexivity|].
  split; [apply toy_rnd_ok; reflexivity|]. split; [apply toy_rnd_ok; reflexivity|].
  split. { apply (connect_run toy_hops toy_ks toy_hops_ok toy_ks_ok sock_A (sock_B 74) (toy_B 74));
    [apply toy_publishes; right; left; reflexivity|apply toy_rnd_ok; reflexivity]. }
  split. { apply (first_run toy_hops toy_ks toy_hops_ok toy_ks_ok (sock_B 74) addr_A 11 22 (toy_rnd 1) (toy_rnd 2));
    try reflexivity; apply toy_rnd_ok; reflexivity. }
  intros r now. apply (misread_dropped toy_hops toy_ks toy_ks_ok).
  - split; apply Nat.leb_le; vm_compute; reflexivity.
  - vm_compute. reflexivity.
  - left. vm_compute. reflexivity.
Qed.
Print Assumptions C60_reply_misread_refuted.

(** ** C61 *)
(** A datagram that is not between 24 and 63 bytes long; dialing only routers that publish an
    address and keys. *)
Definition harmless (c : hops) (o : uop) : Prop :=
  match o with
  | UDatagram r _ _ p => rnd_ok r /\ (length p < 24 \/ 64 <= length p)%nat
  | UConnect router _ _ r _ => rnd_ok r /\ exists v a, publishes c router v a
  | UTimer _ _ => True
  end.
(** What does hold: whatever arrives, in whatever order, if no datagram has between 24 and 63
    bytes, nothing panics. *)
Theorem C61_no_panic_partial :
  forall c ks u ops, primitives_ok c -> stream_ok ks -> fresh u -> (3 <= length (us_info u))%nat ->
    Forall (harmless c) ops -> exists u' sent ev, urun c ks u ops u' sent ev.
Proof.
  intros c ks u ops P K [Fu _] Hi. assert (Hu : sock_ok u).
  { split; [exact Hi|]. intros id x. rewrite Fu. discriminate. }
  clear Fu Hi. intros F. revert u Hu. induction F as [|o ops Ho _ IH]; intros u Hu; [do 3 eexists; constructor|].
  assert (S : exists u1 s e, ustep_of c ks u o = Some (u1, s, e) /\ sock_ok u1).
  { destruct o as [r now a p|router src dst r now|id now]; cbn [harmless] in Ho; cbn [ustep_of].
    - destruct Ho. now apply datagram_safe.
    - destruct Ho. now apply connect_safe.
    - now apply timer_safe. }
  destruct S as (u1 & s & e & E & H1). destruct (IH u1 H1) as (u2 & s2 & e2 & R).
  do 3 eexists. exact (urun_cons c ks u o u1 s e ops u2 s2 e2 E R).
Qed.
Print Assumptions C61_no_panic_partial.
Example C61_hypotheses : fresh sock_A /\ Forall (harmless toy_hops)
  [UDatagram (toy_rnd 4) 0 addr_B (repeat 7 64); UConnect (toy_B 1) 11 22 (toy_rnd 1) 0; UTimer 11 4000].
Proof.
  split; [split; reflexivity|]. constructor; [split; [apply toy_rnd_ok; reflexivity|right; apply Nat.leb_le; reflexivity]|].
  constructor; [split; [apply toy_rnd_ok; reflexivity|do 2 eexists; apply toy_publishes; left; reflexivity]|].
  constructor; [exact I|constructor].
Qed.

(** One datagram of 40 bytes, made with nothing but the published intro key, stops a socket,
    whatever its state is. *)
Theorem C61_datagram_panics_refuted :
  forall c ks u id, stream_ok ks -> id < 2 ^ 64 -> nget id (us_sessions u) = None ->
    exists p, length p = 40%nat /\ bytes_ok p /\ forall r now a, on_datagram c ks u r now a p = None.
Proof.
  intros c ks u id K Hid Hg. exists (bad_datagram ks (us_intro u) id).
  destruct (bad_datagram_bytes ks K (us_intro u) id) as [H1 H2]. split; [exact H1|]. split; [exact H2|].
  intros r now a. now apply bad_datagram_panics.
Qed.
Print Assumptions C61_datagram_panics_refuted.
(** Every socket that has just been bound has an unused id. *)
Example C61_ex : forall u, fresh u -> nget 5 (us_sessions u) = None.
Proof. intros u [H _]. now rewrite H. Qed.

(** ** C62 *)
(** The token of a session request is compared with nothing: a request with any token at all,
    chosen before the token was drawn, is answered, and no matter where it comes from. *)
Theorem C62_any_token_refuted :
  forall c ks B aA src dst r1 r3 (token : list N), primitives_ok c -> stream_ok ks ->
    src < 2 ^ 64 -> dst < 2 ^ 64 -> rnd_ok r1 -> rnd_ok r3 -> length token = 8%nat ->
    nget dst (us_sessions B) = None ->
  exists p1 p3, token_request c ks (us_intro B) dst src r1 = Ok p1 /\
  forall r2 r4 a t2 t4, rnd_ok r2 -> rnd_ok r4 ->
    exists B1 p2, on_datagram c ks B r2 t2 aA p1 = Some (B1, [(aA, p2)], []) /\
    exists B2 p4, on_datagram c ks B1 r4 t4 a p3 = Some (B2, [(aA, p4)], []) /\ (96 <= length p4)%nat.
Proof.
  intros c ks B aA src dst r1 r3 tok P K Hs Hd O1 O3 Lt Hg.
  exists (p1 c ks B src dst r1), (p3 c ks B src dst r3 tok).
  split; [exact (token_request_ok c ks P K (us_intro B) [] src dst r1 O1)|].
  intros r2 r4 a t2 t4 O2 O4. exists (B1 c B aA src dst r2), (p2 c ks B aA src dst r2). split; [now apply first_run|].
  exists (B2 c ks B aA src dst r3 r4 (B1 c B aA src dst r2) tok t4), (p4 c ks B aA src dst r3 r4 tok).
  split; [now apply request_run|]. unfold p4. rewrite (W4_length c ks P). destruct O4 as (_ & ? & _). lia.
Qed.
Print Assumptions C62_any_token_refuted.

(** A token request that names another network (byte 14 of the header) is answered. *)
Theorem C62_any_network_refuted :
  forall c ks B src dst net r1 r2 now aA, primitives_ok c -> stream_ok ks ->
    src < 2 ^ 64 -> dst < 2 ^ 64 -> rnd_ok r1 -> rnd_ok r2 -> nget dst (us_sessions B) = None ->
    let header := le_bytes 8 dst ++ be_bytes 4 (r_num r1) ++ [10; 2; net; 0] ++ le_bytes 8 src ++ be_bytes 8 0 in
    let payload := seal_with c (us_intro B) (r_num r1) header (date_block (r_secs r1) ++ padding_block (r_pad r1)) in
    exists masked B1 p2, mask_first ks (us_intro B) (us_intro B) header payload = Ok masked /\
      on_datagram c ks B r2 now aA (mask_rest ks (us_intro B) masked ++ payload) = Some (B1, [(aA, p2)], []).
Proof.
  intros c ks B src dst net r1 r2 now aA P K Hs Hd O1 O2 Hg h p.
  destruct (other_network c ks K P B src dst net r1 r2 now aA Hs Hd O1 O2 Hg) as (m & H1 & H2). do 3 eexists. split; [exact H1|exact H2].
Qed.
Print Assumptions C62_any_network_refuted.

(** ** C63 *)
(** The answer to the token request is lost and the dialing router repeats the request, as it
    does after three seconds.  The listening router does not answer it; from then on the session
    never comes up, whatever arrives. *)
Theorem C63_lost_reply_refuted :
  forall c ks A B rB aA aB src dst r1 r2 r t1 t2 t3, primitives_ok c -> stream_ok ks -> publishes c rB B aB ->
    src < 2 ^ 64 -> dst < 2 ^ 64 -> rnd_ok r1 -> rnd_ok r2 -> nget dst (us_sessions B) = None -> t1 + 3000 <= t3 ->
  exists A1 p1 B1 p2 A2 B2,
    connect c ks A rB src dst r1 t1 = Some (A1, [(aB, p1)], []) /\
    on_datagram c ks B r2 t2 aA p1 = Some (B1, [(aA, p2)], []) /\
    on_timer A1 src t3 = Some (A2, [(aB, p1)], []) /\
    on_datagram c ks B1 r t3 aA p1 = Some (B2, [], []) /\
    forall ops B3 sent ev, (forall router id r now, ~ In (UConnect router dst id r now) ops) ->
      urun c ks B2 ops B3 sent ev -> forall x, ~ active B3 dst x.
Proof.
  intros c ks A B rB aA aB src dst r1 r2 r t1 t2 t3 P K Pb Hs Hd O1 O2 Hg Ht.
  set (a1 := A1 c ks A B aB src dst r1 t1).
  assert (Ga : nget src (us_sessions a1) = Some (SlotOut (out1 c (us_intro B) (us_static B) (us_static A) (us_info A) src dst aB (us_router A)
      (rtx_token_request (p1 c ks B src dst r1) t1)))) by apply nget_with.
  destruct (timer_step a1 src _ (p1 c ks B src dst r1) [6000; 6000] (t1 + 3000) t3 Ga eq_refl) as [[H _]|(_ & y & E & _)]; [lia|].
  exists a1, (p1 c ks B src dst r1), (B1 c B aA src dst r2), (p2 c ks B aA src dst r2). eexists. eexists.
  split; [now apply (connect_run c ks P K A B rB)|]. split; [now apply first_run|]. split; [exact E|].
  split; [now apply (repeated_request c ks K P B src dst aA r1 r2)|].
  intros ops B3 sent ev Hn R x Hx. unfold active in Hx.
  eapply (dead_run c ks) in R; [|shelve|apply nget_with|exact Hn]. destruct R as (z & Hz & Dz). rewrite Hx in Hz. injection Hz as <-. exact Dz.
  Unshelve. reflexivity.
Qed.
Print Assumptions C63_lost_reply_refuted.

(** ** C64 *)
(** Every dial ends: if the session's timer is looked at every [gap] ms, two copies of the token
    request are sent and then the failure is reported, 15 s (and twice the gap) after the dial at
    the latest, and not before. *)
Definition ends (c : hops) (ks : list N -> list N -> nat -> list N) (u : usock) (id start limit : N)
  (to : addr) (p : list N) (copies : nat) (report : list uevent) : Prop :=
  (forall gap times, times <> [] -> every gap start times -> start + limit + N.of_nat copies * gap <= last times start ->
     exists u', urun c ks u (map (UTimer id) times) u' (repeat (to, p) copies) report /\
       nget id (us_sessions u') = Some SlotClosed) /\
  (forall times, times_from start times -> Forall (fun t => t < start + limit) times ->
     exists u' sent x, urun c ks u (map (UTimer id) times) u' sent [] /\ Forall (eq (to, p)) sent /\
       nget id (us_sessions u') = Some x /\ x <> SlotClosed).
Lemma ends_of c ks u id x p d ds start : nget id (us_sessions u) = Some x ->
  slot_rtx x = Some (mkRtx p ds (Some (start + d))) -> Forall (fun d => 0 < d) ds ->
  ends c ks u id start (d + total ds) (slot_to x) p (length ds) (slot_fails x).
Proof.
  intros Hg Hr Hd. split.
  - intros gap times Hne He Hl. apply (timers_give_up c ks gap id p times u x ds (start + d) start Hg Hr); [lia|exact He|exact Hd|lia|exact Hne].
  - intros times Ht F. destruct (timers_wait c ks id p times u x ds (start + d) start Hg Hr Ht) as (u' & sent & y & H1 & H2 & H3 & H4).
    { eapply Forall_impl; [|exact F]. cbn beta. intros; lia. }
    exists u', sent, y. split; [exact H1|]. split; [exact H2|]. split; [exact H3|]. intros ->. destruct x; exact H4.
Qed.
Theorem C64_dial_ends :
  forall c ks A B rB aB src dst r1 t1, primitives_ok c -> stream_ok ks -> publishes c rB B aB -> rnd_ok r1 ->
  exists A1 p1, connect c ks A rB src dst r1 t1 = Some (A1, [(aB, p1)], []) /\
    exists name, ends c ks A1 src t1 15000 aB p1 2 [Failure name].
Proof.
  intros c ks A B rB aB src dst r1 t1 P K Pb O1.
  exists (A1 c ks A B aB src dst r1 t1), (p1 c ks B src dst r1). split; [now apply (connect_run c ks P K A B rB)|].
  exists (us_router A).
  refine (ends_of c ks (A1 c ks A B aB src dst r1 t1) src (SlotOut (out1 c (us_intro B) (us_static B) (us_static A) (us_info A) src dst aB (us_router A)
      (rtx_token_request (p1 c ks B src dst r1) t1))) (p1 c ks B src dst r1) 3000 [6000; 6000] t1 (nget_with A _ _) eq_refl _).
  repeat constructor.
Qed.
Print Assumptions C64_dial_ends.
(** The same for the later stages: the session request, what the listening side replies to it,
    and the last message of the handshake. *)
Theorem C64_later_stages_end :
  forall c ks A B rB aA aB src dst r1 r2 r3 r4 r5 t1 t2 t3 t4 t5,
    primitives_ok c -> stream_ok ks -> publishes c rB B aB -> (3 <= length (us_info A))%nat ->
    src < 2 ^ 64 -> dst < 2 ^ 64 -> addr_ok aA -> rnd_ok r1 -> rnd_ok r2 -> rnd_ok r3 -> rnd_ok r4 ->
    nget dst (us_sessions B) = None ->
  forall A1 p1 B1 p2, connect c ks A rB src dst r1 t1 = Some (A1, [(aB, p1)], []) ->
    on_datagram c ks B r2 t2 aA p1 = Some (B1, [(aA, p2)], []) -> ~ mistaken ks A1 p2 ->
  exists name A2 p3, on_datagram c ks A1 r3 t3 aB p2 = Some (A2, [(aB, p3)], []) /\
    ends c ks A2 src t3 15000 aB p3 3 [Failure name] /\
  exists B2 p4, on_datagram c ks B1 r4 t4 aA p3 = Some (B2, [(aA, p4)], []) /\
    ends c ks B2 dst t4 12000 aA p4 3 [] /\
  (~ mistaken ks A2 p4 ->
  exists A3 p5, on_datagram c ks A2 r5 t5 aB p4 = Some (A3, [(aB, p5)], []) /\
    ends c ks A3 src t5 15000 aB p5 3 [Failure name]).
Proof.
  intros c ks A B rB aA aB src dst r1 r2 r3 r4 r5 t1 t2 t3 t4 t5 P K Pb Hi Hs Hd Ha O1 O2 O3 O4 Hg A1' p1' B1' p2' E1 E2 M1.
  rewrite (connect_run c ks P K A B rB aB src dst r1 Pb O1 t1) in E1. apply some_eq in E1.
  apply pair_equal_spec in E1 as [E1 _]. apply pair_equal_spec in E1 as [<- E1]. injection E1 as <-.
  rewrite (first_run c ks P K B aA src dst r1 r2 Hs Hd O1 O2 t2 Hg) in E2. apply some_eq in E2.
  apply pair_equal_spec in E2 as [E2 _]. apply pair_equal_spec in E2 as [<- E2]. injection E2 as <-.
  set (tok := tok2 r2). assert (Lt : length tok = 8%nat) by apply le_bytes_length.
  set (a2 := A2 c ks A B aB src dst r2 r3 (A1 c ks A B aB src dst r1 t1) t3).
  exists (us_router A), a2, (p3 c ks B src dst r3 tok). split; [now apply retry_run|].
  split. { refine (ends_of c ks a2 src _ (p3 c ks B src dst r3 tok) 1250 [2500; 5000; 6250] t3 (nget_with _ _ _) eq_refl _). repeat constructor. }
  set (b2 := B2 c ks B aA src dst r3 r4 (B1 c B aA src dst r2) tok t4).
  exists b2, (p4 c ks B aA src dst r3 r4 tok). split; [now apply request_run|].
  split. { refine (ends_of c ks b2 dst _ (p4 c ks B aA src dst r3 r4 tok) 1000 [2000; 4000; 5000] t4 (nget_with _ _ _) eq_refl _). repeat constructor. }
  intros M2. set (a3 := A3 c ks A B aA aB src dst r3 r4 a2 tok t5).
  exists a3, (p5 c ks A B aA src dst r3 r4 tok). split.
  { apply (created_run c ks P K A B aA aB src dst r3 r4 Hs Hd Ha O4 a2 t3 t5 tok); [apply nget_with|apply lookup_head|exact Lt|exact Hi|exact M2]. }
  refine (ends_of c ks a3 src _ (p5 c ks A B aA src dst r3 r4 tok) 1250 [2500; 5000; 6250] t5 (nget_with _ _ _) eq_refl _). repeat constructor.
Qed.
Print Assumptions C64_later_stages_end.
Example C64_ex : every 500 0 (map N.of_nat (map (fun k => 500 * k)%nat (seq 0 33))) /\
  0 + 15000 + N.of_nat 2 * 500 <= last (map N.of_nat (map (fun k => 500 * k)%nat (seq 0 33))) 0.
Proof. vm_compute. repeat split; discriminate. Qed.

(** A session that waits for the session request never ends: it has no timer.  Each costs its
    opener one datagram, and there is no limit. *)
Theorem C64_half_open_refuted :
  forall c ks B a now r n, primitives_ok c -> stream_ok ks -> fresh B -> rnd_ok r -> N.of_nat n <= 2 ^ 64 ->
  exists datagrams, length datagrams = n /\
  exists B' sent, urun c ks B (map (UDatagram r now a) datagrams) B' sent [] /\
    forall i, (i < n)%nat -> exists s, nget (N.of_nat i) (us_sessions B') = Some (SlotIn s) /\
      forall times, urun c ks B' (map (UTimer (N.of_nat i)) times) B' [] [].
Proof.
  intros c ks B a now r n P K [Fb _] O Hn.
  exists (map (fun i => W1 c ks (us_intro B) 0 (N.of_nat i) r) (seq 0 n)). split; [now rewrite map_length, seq_length|].
  destruct (flood_run c ks K P B a now r O Fb n Hn) as (B' & sent & R & _ & _ & H & _).
  exists B', sent. split; [rewrite map_map; exact R|]. intros i Hi. destruct (H i Hi) as (s & Hs & Ht). exists s. split; [exact Hs|].
  intros times. now apply (idle_run c ks B' (N.of_nat i) s).
Qed.
Print Assumptions C64_half_open_refuted.

(** ** C65 *)
(** The router id a dialed session (or its failure) is reported under is always the router's own,
    whichever router was dialed. *)
Theorem C65_own_name_refuted :
  forall c ks u ops u' sent ev, fresh u -> urun c ks u ops u' sent ev ->
    forall r, In (Established false r) ev \/ In (Failure r) ev -> r = us_router u.
Proof.
  intros c ks u ops u' sent ev [Fu _] R r H.
  destruct (named_run c ks u ops u' sent ev) as (_ & _ & F); [intros id x; rewrite Fu; discriminate|exact R|].
  rewrite Forall_forall in F. destruct H as [H|H]; apply F in H; exact H.
Qed.
Print Assumptions C65_own_name_refuted.
(** It does happen: the run above reports the dialing router, [[1]], and not the dialed one. *)
Example C65_ex : (exists ev, toy_run 1 = Some ev /\ In (Established false [1]) ev) /\ ri_hash (rf_identity (toy_B 1)) <> [1].
Proof.
  split; [eexists; split; [exact (proj2 (proj2 (proj2 (proj2 (proj2 (proj2 C60_hypotheses))))))|right; left; reflexivity]|].
  vm_compute. discriminate.
Qed.

(** ** C66 *)
(** What does hold of the router an accepted session is reported for: somebody has presented a
    router info with a valid signature of its identity. *)
Theorem C66_signed_info_partial :
  forall c ks u ops u' sent ev, fresh u -> urun c ks u ops u' sent ev ->
    forall r, In (Established true r) ev -> exists info i, parse_info c info = Some i /\ r = ri_hash (rf_identity i) /\
      (bytes_ok info -> exists body sg, info = body ++ sg /\ length sg = 64%nat /\
         verify (x_ext (h_ops c)) (Ed25519 (ri_signing (rf_identity i))) body sg = true).
Proof.
  intros c ks u ops u' sent ev [Fu _] R r H.
  destruct (named_run c ks u ops u' sent ev) as (_ & _ & F); [intros id x; rewrite Fu; discriminate|exact R|].
  rewrite Forall_forall in F. apply F in H. destruct H as (info & i & Hi & Hr). exists info, i. split; [exact Hi|]. split; [exact Hr|].
  intros Ob. unfold parse_info in Hi. destruct (parse_rinfo _ info) as [[r' rr]|] eqn:Ep; [|discriminate]. injection Hi as ->.
  destruct (C29_router_info_authentic _ _ _ _ Ob Ep) as (body & sg & H1 & H2 & H3 & _). eauto 6.
Qed.
Print Assumptions C66_signed_info_partial.

(** Anybody can be accepted as any router: [attacker] is an arbitrary private key, [info] somebody
    else's published router info and [intro] the intro key in it. *)
Theorem C66_impersonation_refuted :
  forall c ks B info rV intro attacker name rB aA aB src dst r1 r2 r3 r4 r5 r6 t1 t2 t3 t4 t5 t6 t7,
    primitives_ok c -> stream_ok ks -> publishes c rB B aB ->
    parse_info c info = Some rV -> ssu2_intro_key rV = Some intro -> (3 <= length info <= 1963)%nat ->
    src < 2 ^ 64 -> dst < 2 ^ 64 -> addr_ok aA -> rnd_ok r1 -> rnd_ok r2 -> rnd_ok r3 -> rnd_ok r4 ->
    nget dst (us_sessions B) = None ->
    let A := mkUsock intro attacker info name [] [] in
  exists A1 p1, connect c ks A rB src dst r1 t1 = Some (A1, [(aB, p1)], []) /\
  exists B1 p2, on_datagram c ks B r2 t2 aA p1 = Some (B1, [(aA, p2)], []) /\
  (~ mistaken ks A1 p2 ->
  exists A2 p3, on_datagram c ks A1 r3 t3 aB p2 = Some (A2, [(aB, p3)], []) /\
  exists B2 p4, on_datagram c ks B1 r4 t4 aA p3 = Some (B2, [(aA, p4)], []) /\
  (~ mistaken ks A2 p4 ->
  exists A3 p5, on_datagram c ks A2 r5 t5 aB p4 = Some (A3, [(aB, p5)], []) /\
  exists B3 p6, on_datagram c ks B2 r6 t6 aA p5 =
                Some (B3, [(aA, p6)], [Established true (ri_hash (rf_identity rV))]) /\
  exists A4 me, on_datagram c ks A3 r6 t7 aB p6 = Some (A4, [], [Established false me]) /\
  exists xa xb, active A4 src xa /\ active B3 dst xb /\ sc_router xb = ri_hash (rf_identity rV) /\
    send_keys xa = recv_keys B3 xb /\ send_keys xb = recv_keys A4 xa)).
Proof.
  intros c ks B info rV intro attacker name rB aA aB src dst r1 r2 r3 r4 r5 r6 t1 t2 t3 t4 t5 t6 t7 P K Pb Hv Hk Hi Hs Hd Ha O1 O2 O3 O4 Hg A.
  destruct (C60_key_agreement c ks A B rV rB aA aB src dst r1 r2 r3 r4 r5 r6 t1 t2 t3 t4 t5 t6 t7 P K Pb Hv Hk Hi Hs Hd Ha O1 O2 O3 O4 Hg)
    as (A1 & p1 & E1 & B1 & p2 & E2 & H). exists A1, p1. split; [exact E1|]. exists B1, p2. split; [exact E2|]. intros M1.
  destruct (H M1) as (A2 & p3 & E3 & B2 & p4 & E4 & H'). exists A2, p3. split; [exact E3|]. exists B2, p4. split; [exact E4|]. intros M2.
  destruct (H' M2) as (A3 & p5 & E5 & B3 & p6 & E6 & A4 & me & E7 & xa & xb & Xa & Xb & _ & _ & _ & _ & Sr & S1 & S2).
  exists A3, p5. split; [exact E5|]. exists B3, p6. split; [exact E6|]. exists A4, me. split; [exact E7|].
  exists xa, xb. split; [exact Xa|]. split; [exact Xb|]. split; [exact Sr|]. split; [exact S1|exact S2].
Qed.
Print Assumptions C66_impersonation_refuted.
(** The dialing router of the example publishes the static key of [[3; 4]]; the same run goes
    through with any other. *)
Example C66_ex : exists rV, parse_info toy_hops toy_info = Some rV /\
  match ssu2_static_key rV with Some k => beq k (x_pub (h_ops toy_hops) [9; 9; 9]) | None => true end = false.
Proof.
  assert (E : match parse_info toy_hops toy_info with
              | Some r => match ssu2_static_key r with Some k => beq k (x_pub (h_ops toy_hops) [9; 9; 9]) | None => true end
              | None => true end = false) by (vm_compute; reflexivity).
  destruct (parse_info toy_hops toy_info) as [r|]; [|discriminate]. exists r. split; [reflexivity|exact E].
Qed.
