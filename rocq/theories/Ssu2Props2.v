(** C51: blocks the router reads, as published: a type, a size of two bytes, and the content. *)
From Coq Require Import List NArith Bool Arith Lia ZArith ZifyBool ZifyNat ZifyN.
From Verif Require Import ListUtil Bytes PrimModel I2npModel Ntcp2Model Ssu2Model.
Import ListNotations.
Open Scope N_scope.

Definition tlv (t : N) (body : bytes) : bytes := be_bytes 1 t ++ be_bytes 2 (N.of_nat (length body)) ++ body.
(** The content of a block, for the kinds that do not contain a message or a router info. *)
Definition published (b : block) : option (N * bytes) :=
  match b with
  | SDateTime t => Some (0, be_bytes 4 t)
  | STermination valid reason => Some (6, be_bytes 8 valid ++ be_bytes 1 reason)
  | SNewToken expires token => Some (17, be_bytes 4 expires ++ be_bytes 8 token)
  | SPathChallenge d => Some (18, d)
  | SPathResponse d => Some (19, d)
  | SFirstPacketNumber n => Some (20, be_bytes 4 n)
  | SCongestion flag => Some (21, be_bytes 1 flag)
  | SPadding d => Some (254, d)
  | _ => None
  end.
Definition in_range (b : block) : Prop :=
  match b with
  | SDateTime t | SFirstPacketNumber t => t < 2 ^ 32
  | STermination valid reason => valid < 2 ^ 64 /\ reason < 256
  | SNewToken expires token => expires < 2 ^ 32 /\ token < 2 ^ 64
  | SPathChallenge d | SPathResponse d | SPadding d => N.of_nat (length d) < 65536
  | SCongestion flag => flag < 256
  | _ => True
  end.
Theorem C51_published_blocks : forall e b t body rest, published b = Some (t, body) -> in_range b ->
  s_block e (tlv t body ++ rest) = Some (b, rest).
Proof.
  assert (si : forall (x y : N * bytes), Some x = Some y -> x = y) by congruence.
  intros e b t body rest hp hr. unfold tlv. rewrite <- !app_assoc.
  destruct b; cbn [published] in hp; try discriminate hp; apply si, pair_equal_spec in hp as [<- <-]; cbn [in_range] in hr;
    unfold s_block; pstep ltac:(apply be1_app; lia); cbn [N.eqb Pos.eqb].
  - unfold s_date_time. rewrite be_bytes_length. pstep ltac:(apply be2_app; cbn; lia). pstep ltac:(apply be4_app; lia). reflexivity.
  - unfold s_termination. rewrite app_length, !be_bytes_length. pstep ltac:(apply be2_app; cbn; lia). rewrite <- app_assoc.
    pstep ltac:(apply be8_app; lia). pstep ltac:(apply be1_app; lia). reflexivity.
  - unfold s_new_token. rewrite app_length, !be_bytes_length. pstep ltac:(apply be2_app; cbn; lia). rewrite <- app_assoc.
    pstep ltac:(apply be4_app; lia). pstep ltac:(apply be8_app; lia). reflexivity.
  - unfold s_path_challenge. pstep ltac:(apply be2_app; lia). pstep ltac:(apply take_app; lia). reflexivity.
  - unfold s_path_response. pstep ltac:(apply be2_app; lia). pstep ltac:(apply take_app; lia). reflexivity.
  - unfold s_first_packet_number. rewrite be_bytes_length. pstep ltac:(apply be2_app; cbn; lia). pstep ltac:(apply be4_app; lia). reflexivity.
  - unfold s_congestion. rewrite be_bytes_length. pstep ltac:(apply be2_app; cbn; lia). pstep ltac:(apply be1_app; lia). reflexivity.
  - unfold s_padding. pstep ltac:(apply be2_app; lia). pstep ltac:(apply take_app; lia). reflexivity.
Qed.
Print Assumptions C51_published_blocks.
(** So any series of them is read as written. *)
Theorem C51_published_series : forall e bs, bs <> [] ->
  Forall (fun b => in_range b /\ published b <> None) bs ->
  s_parse e (flat_map (fun b => match published b with Some (t, body) => tlv t body | None => [] end) bs) = Some bs.
Proof.
  intros e bs hn hf. unfold s_parse.
  set (w := fun b => match published b with Some (t, body) => tlv t body | None => [] end).
  assert (gen : forall bs fuel, bs <> [] -> Forall (fun b => in_range b /\ published b <> None) bs ->
    (length (flat_map w bs) < fuel)%nat -> s_blocks e fuel (flat_map w bs) = Some bs).
  { clear bs hn hf. induction bs as [|b bs IH]; intros fuel hn hf hl; [congruence|].
    inversion hf as [|x y [h1 h2] h3]; subst. destruct fuel as [|fuel]; [lia|]. cbn [flat_map s_blocks] in *.
    destruct (published b) as [[t body]|] eqn:ep; [|congruence].
    assert (ew : w b = tlv t body) by (unfold w; rewrite ep; reflexivity). rewrite ew in *.
    rewrite (C51_published_blocks e b t body (flat_map w bs) ep h1).
    assert (lw : forall b', published b' <> None -> (3 <= length (w b'))%nat).
    { intros b' hb. unfold w. destruct (published b') as [[t' body']|]; [|congruence]. unfold tlv.
      rewrite !app_length, !be_bytes_length. lia. }
    destruct bs as [|b2 bs].
    - reflexivity.
    - inversion h3 as [|x y [k1 k2] k3]; subst. pose proof (lw b2 k2) as l2.
      assert (IH' : s_blocks e fuel (flat_map w (b2 :: bs)) = Some (b2 :: bs)).
      { apply IH; [discriminate | exact h3|]. unfold tlv in hl. rewrite !app_length, !be_bytes_length in hl. lia. }
      destruct (flat_map w (b2 :: bs)) as [|z l] eqn:ef.
      + cbn [flat_map] in ef. apply app_eq_nil in ef as [ef _]. rewrite ef in l2. cbn in l2. lia.
      + rewrite IH'. reflexivity. }
  apply gen; [exact hn | exact hf | lia].
Qed.
Print Assumptions C51_published_series.
Example C51_published_ex :
  Forall (fun b => in_range b /\ published b <> None)
    [SDateTime 77; SNewToken 5 6; SPathChallenge [1; 2]; SPathResponse [1; 2]; SFirstPacketNumber 9; SCongestion 1; STermination 3 2; SPadding [0]] /\
  (fun b => match published b with Some (t, body) => tlv t body | None => [] end) (SCongestion 1) = [21; 0; 1; 1].
Proof. split; [|reflexivity]. repeat (apply Forall_cons; [cbn; repeat split; try lia; discriminate|]). apply Forall_nil. Qed.
