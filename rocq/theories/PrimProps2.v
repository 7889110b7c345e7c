(** C29, continued: what a router info says about its router. *)
From Coq Require Import Ascii.
From Coq Require Import List NArith Bool Lia.
From Verif Require Import Bytes PrimModel PrimSpec PrimProofs PrimProps.
Import ListNotations.
Open Scope N_scope.

(** ** Specification *)
Definition letter (a : ascii) : N := N_of_ascii a.
(** Decimal digits and their value. *)
Definition digits (l : list N) : Prop := l <> [] /\ Forall (fun d => letter "0" <= d <= letter "9") l.
Definition decimal (l : list N) : N := fold_left (fun v d => 10 * v + (d - letter "0")) l 0.
(** Of the addresses of one kind, the first that has a socket address; the last one if none has. *)
Definition is_kind (t : transport) (a : router_address) : bool :=
  match ra_transport a, t with Ntcp2, Ntcp2 => true | Ssu2, Ssu2 => true | _, _ => false end.
Definition has_socket (a : router_address) : bool := match ra_socket a with Some _ => true | None => false end.
Definition preferred (t : transport) (l : list router_address) : option router_address :=
  match find has_socket (filter (is_kind t) l) with
  | Some a => Some a
  | None => match rev (filter (is_kind t) l) with a :: _ => Some a | [] => None end
  end.

(** ** Proofs *)
Lemma decimal_grows l : forall v, v <= fold_left (fun v d => 10 * v + (d - 48)) l v.
Proof. induction l as [|d l IH]; intro v; cbn [fold_left]; [lia|]. etransitivity; [|apply IH]. lia. Qed.
Lemma dec_digits_value max l : forall v, v <= max -> Forall (fun d => 48 <= d <= 57) l ->
  dec_digits max v l = if fold_left (fun v d => 10 * v + (d - 48)) l v <=? max then Some (fold_left (fun v d => 10 * v + (d - 48)) l v) else None.
Proof.
  induction l as [|d l IH]; intros v V F; cbn [dec_digits fold_left].
  - destruct (N.leb_spec v max); [reflexivity | lia].
  - inversion F as [|? ? D F']; subst. unfold rng.
    assert (X : (48 <=? d) && (d <=? 57) = true) by (rewrite andb_true_iff, !N.leb_le; exact D). rewrite X.
    replace (v * 10 + (d - 48)) with (10 * v + (d - 48)) by lia. destruct (N.ltb_spec max (10 * v + (d - 48))) as [L|L].
    + pose proof (decimal_grows l (10 * v + (d - 48))). destruct (N.leb_spec (fold_left (fun v d => 10 * v + (d - 48)) l (10 * v + (d - 48))) max); [lia | reflexivity].
    + now apply IH.
Qed.
Lemma parse_dec_value max l : digits l -> parse_dec max l = if decimal l <=? max then Some (decimal l) else None.
Proof.
  intros [NE F]. unfold decimal. change (letter "0") with 48 in *. change (letter "9") with 57 in *.
  rewrite <- (dec_digits_value max l 0) by (try exact F; lia). destruct l as [|d l]; [congruence|].
  inversion F as [|? ? D F']; subst. unfold parse_dec.
  assert (N : d <> 43) by lia. destruct d as [|p]; [lia|]. destruct p as [p|p|]; try reflexivity;
  destruct p as [p|p|]; try reflexivity; destruct p as [p|p|]; try reflexivity; destruct p as [p|p|]; try reflexivity;
  destruct p as [p|p|]; try reflexivity; destruct p as [p|p|]; try reflexivity; congruence.
Qed.

(** A published host and decimal port are the address other routers use; a port that does not fit
    16 bits, or a host that is not an IP address, gives none. *)
Theorem C29_socket_address : forall e a host port, mget s_host (ra_options a) = Some host -> mget s_port (ra_options a) = Some port ->
  digits port ->
  ra_socket (published_address e a) =
    match parse_ip e host with Some ip => if decimal port <? 65536 then Some (ip, decimal port) else None | None => None end.
Proof.
  intros e a host port H P D. unfold published_address. cbn [ra_socket]. unfold socket_of. rewrite H, P, (parse_dec_value _ _ D).
  destruct (parse_ip e host) as [ip|]; [|reflexivity].
  destruct (N.leb_spec (decimal port) 65535), (N.ltb_spec (decimal port) 65536); try reflexivity; lia.
Qed.
Print Assumptions C29_socket_address.
Theorem C29_no_socket_address : forall e a, mget s_host (ra_options a) = None \/ mget s_port (ra_options a) = None ->
  ra_socket (published_address e a) = None.
Proof.
  intros e a H. unfold published_address. cbn [ra_socket]. unfold socket_of. destruct H as [-> | ->]; [reflexivity|].
  destruct (mget s_host (ra_options a)); reflexivity.
Qed.
Print Assumptions C29_no_socket_address.

(** What the capability letters mean. *)
Lemma has_in c s : has c s = true <-> In c s.
Proof.
  unfold has. rewrite existsb_exists. split; [intros (x & X & E); apply N.eqb_eq in E; now subst | intro X; exists c; now rewrite N.eqb_refl].
Qed.
Lemma has_not c s : has c s = false <-> ~ In c s.
Proof. rewrite <- has_in. destruct (has c s); split; congruence || tauto. Qed.
Theorem C29_capabilities : forall s,
  let c := parse_caps s in
  c_raw c = s /\
  (c_floodfill c = true <-> In (letter "f") s) /\
  (c_usable c = true <-> ~ In (letter "E") s /\ ~ In (letter "G") s) /\
  (c_reachable c = true <-> ~ In (letter "U") s /\ ~ In (letter "H") s) /\
  (is_standard c = true <-> In (letter "K") s \/ In (letter "L") s \/ In (letter "M") s \/ In (letter "N") s) /\
  (is_fast c = true <-> is_standard c = false /\ (In (letter "O") s \/ In (letter "P") s \/ In (letter "X") s)).
Proof.
  intro s. cbv zeta. unfold parse_caps. cbn [c_raw c_floodfill c_usable c_reachable].
  split; [reflexivity|]. split; [apply has_in|].
  split; [rewrite negb_true_iff, orb_false_iff, !has_not; reflexivity|].
  split; [rewrite negb_true_iff, orb_false_iff, !has_not; reflexivity|].
  unfold is_fast, is_standard. cbn [c_bandwidth]. unfold bandwidth_of. cbn [find].
  change (letter "K") with 75. change (letter "L") with 76. change (letter "M") with 77. change (letter "N") with 78.
  change (letter "O") with 79. change (letter "P") with 80. change (letter "X") with 88.
  rewrite <- !has_in.
  destruct (has 75 s), (has 76 s), (has 77 s), (has 78 s), (has 79 s), (has 80 s), (has 88 s); vm_compute; intuition discriminate.
Qed.
Print Assumptions C29_capabilities.

(** Of several addresses of one kind the right one is kept. *)
Lemma upd_fold t l : forall m,
  (match t with Ntcp2 => fst | Ssu2 => snd end) (fold_left (fun m a => add_addr a m) l m) =
  fold_left upd_addr (filter (is_kind t) l) ((match t with Ntcp2 => fst | Ssu2 => snd end) m).
Proof.
  induction l as [|a l IH]; intro m; cbn [fold_left filter]; [reflexivity|]. rewrite IH. unfold add_addr, is_kind.
  destruct (ra_transport a), t; reflexivity.
Qed.
Lemma upd_fold_kept l : forall o, has_socket o = true -> fold_left upd_addr l (Some o) = Some o.
Proof.
  induction l as [|a l IH]; intros o H; cbn [fold_left]; [reflexivity|]. unfold upd_addr at 2. unfold has_socket in H.
  destruct (ra_socket o) eqn:E; [|discriminate H]. apply IH. unfold has_socket. now rewrite E.
Qed.
Lemma upd_fold_pref l : forall o, match o with Some x => has_socket x = false | None => True end ->
  fold_left upd_addr l o = match find has_socket l with Some a => Some a
    | None => match rev l with a :: _ => Some a | [] => o end end.
Proof.
  induction l as [|a l IH]; intros o H; cbn [fold_left find rev]; [reflexivity|].
  assert (U : upd_addr o a = Some a).
  { destruct o as [x|]; [|reflexivity]. unfold upd_addr. unfold has_socket in H. now destruct (ra_socket x). }
  rewrite U. destruct (has_socket a) eqn:E; [now apply upd_fold_kept|].
  rewrite (IH (Some a) E). destruct (find has_socket l); [reflexivity|]. destruct (rev l); reflexivity.
Qed.
Theorem C29_addresses_kept : forall e i r rest, bytes_ok i -> parse_rinfo e i = Some (r, rest) ->
  exists n tl addrs tl', i = ser_ri (rf_identity r) ++ be_bytes 8 (rf_published r) ++ be_bytes 1 n ++ tl /\
    length addrs = N.to_nat n /\ many (N.to_nat n) (parse_ra e) tl = Some (addrs, tl') /\
    rf_ntcp2 r = preferred Ntcp2 addrs /\ rf_ssu2 r = preferred Ssu2 addrs.
Proof.
  intros e i r rest Hi H. unfold parse_rinfo in H.
  apply bind_inv in H as (id & r1 & H1 & H). apply bind_inv in H as (pub & r2 & H2 & H).
  apply bind_inv in H as (n & r3 & H3 & H). apply bind_inv in H as (ads & r4 & H4 & H).
  apply bind_inv in H as (ps & r5 & H5 & H). apply bind_inv in H as (opts & r6 & H6 & H).
  cbv zeta in H.
  destruct (mget s_caps (into_hashmap opts)); [|discriminate].
  destruct (mget s_netid (into_hashmap opts)); [|discriminate].
  destruct (parse_dec 255 _); [|discriminate].
  match type of H with (if ?b then _ else _) = _ => destruct b eqn:E; [|discriminate] end.
  injection H as <- <-. cbn [rf_identity rf_published rf_ntcp2 rf_ssu2].
  destruct (parse_ri_inv _ _ _ _ Hi H1) as (Ei & _).
  assert (B1 : bytes_ok r1) by (rewrite Ei in Hi; apply Forall_app in Hi; tauto).
  exists n, r3, ads, r4. split; [|split; [|split; [exact H4|]]].
  - rewrite Ei. f_equal. apply be_uint_inv in H2 as (Ep & _ & B2); [|exact B1]. apply be_uint_inv in H3 as (En & _); [|exact B2]. now rewrite Ep, En.
  - clear - H4. revert r3 ads r4 H4. induction (N.to_nat n) as [|k IH]; intros; cbn [many] in H4.
    + apply ret_inv in H4 as [H4 _]. now rewrite <- H4 || now subst.
    + apply bind_inv in H4 as (a & q & A & H4). apply bind_inv in H4 as (a' & q' & A' & H4).
      apply ret_inv in H4 as [H4 _]. subst. cbn [length]. f_equal. eapply IH; eauto.
  - pose proof (upd_fold Ntcp2 ads (None, None)) as X1. pose proof (upd_fold Ssu2 ads (None, None)) as X2. cbn [fst snd] in X1, X2.
    rewrite X1, X2, !upd_fold_pref by exact I. unfold preferred. split; reflexivity.
Qed.
Print Assumptions C29_addresses_kept.

(** Cases that meet the hypotheses. *)
Example C29_published_ex : digits [56; 48] /\ decimal [56; 48] = 80 /\
  ra_socket (published_address toy toy_addr) = Some ([49; 46; 50], 80) /\
  is_fast (parse_caps [102; 80; 79; 82]) = true /\ c_floodfill (parse_caps [102; 80; 79; 82]) = true /\
  preferred Ntcp2 [mkRa 1 0 Ntcp2 [] None; mkRa 2 0 Ntcp2 [] (Some ([1], 2)); mkRa 3 0 Ssu2 [] None; mkRa 4 0 Ntcp2 [] (Some ([5], 2))]
    = Some (mkRa 2 0 Ntcp2 [] (Some ([1], 2))).
Proof.
  split; [split; [discriminate | repeat constructor; vm_compute; discriminate]|]. vm_compute.
  split; [reflexivity|]. split; [reflexivity|]. split; [reflexivity|]. split; reflexivity.
Qed.
