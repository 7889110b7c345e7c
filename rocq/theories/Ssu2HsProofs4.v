(** Proofs about the SSU2 handshake: panics, poisoned sessions, timers and events. *)
From Coq Require Import String List NArith Bool Arith Lia ZifyBool ZifyNat ZifyN.
From Verif Require Import ListUtil Bytes NMap PrimModel I2npModel EncModel NoiseModel Ntcp2Model Ssu2Model Ssu2Proofs2
  RouteProofs HandshakeModel HandshakeSpec HandshakeProofs Ssu2HsModel Ssu2HsSpec Ssu2HsProofs Ssu2HsProofs2 Ssu2HsProofs3.
Import ListNotations.
Open Scope N_scope.

(** ** Timers *)
Lemma rtx_poll_pkt r now : rt_pkt (fst (rtx_poll r now)) = rt_pkt r /\
  forall p, snd (rtx_poll r now) = RtxSend p -> p = rt_pkt r.
Proof.
  unfold rtx_poll. destruct (rt_at r) as [t|]; [|split; [reflexivity|discriminate]].
  destruct (now <? t); [split; [reflexivity|discriminate]|].
  destruct (rt_left r); cbn [fst snd rt_pkt]; (split; [reflexivity|]); [discriminate|]. intros p H. now injection H.
Qed.

Section Proofs.
Variable c : hops.
Variable ks : bytes -> bytes -> nat -> bytes.
Hypothesis P : primitives_ok c.
Hypothesis K : stream_ok ks.
Let e := x_ext (h_ops c).
Let pub := x_pub (h_ops c).

(** ** No panics on long packets *)
Lemma mask_first_ok k1 k2 h s : (24 <= length s)%nat -> exists x, mask_first ks k1 k2 h s = Ok x.
Proof. intros H. unfold mask_first. destruct (Nat.ltb_spec (length s) 24); [lia|]. eauto. Qed.
Lemma reader_parse_ok k r : (64 <= length (hr_pkt r))%nat ->
  exists o r', reader_parse ks k r = Ok (o, r') /\ length (hr_pkt r') = length (hr_pkt r).
Proof.
  intros H. unfold reader_parse. set (pkt := mask_at 8 _ _).
  assert (L : length pkt = length (hr_pkt r)) by apply mask_at_length.
  assert (U : forall to, (to <= 64)%nat -> unmask_tail ks k to pkt = Ok (mask_at 16 (ks k zero_iv (to - 16)) pkt)).
  { intros to Ht. unfold unmask_tail. destruct (Nat.ltb_spec (length pkt) to); [lia|reflexivity]. }
  cbv zeta. rewrite !U by lia. cbn [rbind].
  repeat match goal with |- context [if ?b then _ else _] => destruct b end;
    eexists; eexists; (split; [reflexivity|]); cbn [hr_pkt]; rewrite ?mask_at_length; exact L.
Qed.
Lemma session_header_ok k1 k2 p : (64 <= length p)%nat ->
  session_header ks k1 k2 p = Err \/
  exists k p', session_header ks k1 k2 p = Ok (k, p') /\ length p' = length p.
Proof.
  intros H. unfold session_header, reader_new. destruct (Nat.ltb_spec (length p) 24); [lia|]. cbn [rbind].
  match goal with |- context [reader_parse ks k2 ?r] => destruct (reader_parse_ok k2 r H) as (o & r' & E & L) end.
  rewrite E. cbn [rbind]. destruct o as [k|]; [right|now left]. exists k, (hr_pkt r'). split; [reflexivity|exact L].
Qed.
Lemma slice_ok (p : bytes) a b : (a <= b)%nat -> (b <= length p)%nat -> exists x, slice p a b = Some x /\ length x = (b - a)%nat.
Proof.
  intros H1 H2. unfold slice. destruct (Nat.leb_spec a b); [|lia]. destruct (Nat.leb_spec b (length p)); [|lia].
  eexists. split; [reflexivity|]. rewrite firstn_length, skipn_length. lia.
Qed.
Lemma in_new_safe a n dst src num intro static p r : (64 <= length p)%nat -> rnd_ok r ->
  in_new c ks a n dst src num intro static p r <> Panic.
Proof.
  intros H (_ & Hp & _). unfold in_new. destruct (slice_ok p 32 (length p)) as (x & -> & _); [lia|lia|]. cbn [or_panic rbind].
  destruct (open_with c intro num (firstn 32 p) x) as [y|]; [|discriminate]. cbn [or_err rbind].
  destruct (s_parse _ y); [|discriminate]. unfold retry.
  match goal with |- context [mask_first ks ?a ?b ?h ?s] => destruct (mask_first_ok a b h s) as [z ->] end.
  { rewrite (sealed_length c P), !app_length, date_length, address_length, padding_length. lia. }
  discriminate.
Qed.
Lemma on_session_request_safe s r now p : (64 <= length p)%nat -> rnd_ok r -> on_session_request c ks s r now p <> Panic.
Proof.
  intros H (_ & Hp & _). unfold on_session_request.
  destruct (session_header_ok (in_intro s) (in_intro s) p H) as [->|(k & p' & -> & L)]; [discriminate|]. cbn [rbind].
  destruct k; try discriminate.
  destruct (slice_ok p' 0 32) as (x1 & -> & _); [lia|lia|]. destruct (slice_ok p' 32 64) as (x2 & -> & _); [lia|lia|].
  cbn [or_panic rbind]. destruct (mix_key c _ (in_static s) eph) as [n key].
  destruct (slice_ok p' 64 (length p')) as (x3 & -> & _); [lia|lia|]. cbn [or_panic rbind].
  destruct (open_with c key 0 (n_h n) x3) as [y|]; [|discriminate]. cbn [or_err rbind].
  destruct (s_parse _ y); [|discriminate]. destruct (mix_key c _ (r_eph r) eph) as [n' key'].
  match goal with |- context [mask_first ks ?a ?b ?h ?s] => destruct (mask_first_ok a b h s) as [z ->] end.
  { rewrite (sealed_length c P), !app_length, date_length, address_length, padding_length. lia. }
  discriminate.
Qed.
Lemma on_session_confirmed_safe s eph k2 kc p : (64 <= length p)%nat -> on_session_confirmed c ks s eph k2 kc p <> Panic.
Proof.
  intros H. unfold on_session_confirmed.
  destruct (session_header_ok (in_intro s) k2 p H) as [->|(k & p' & -> & L)]; [discriminate|]. cbn [rbind].
  destruct k; try discriminate. destruct (negb (pkt_num =? 0)); [discriminate|].
  destruct (slice_ok p' 0 16) as (x1 & -> & _); [lia|lia|]. cbn [or_panic rbind].
  destruct (slice_ok p' 16 64) as (x2 & -> & L2); [lia|lia|]. cbn [or_panic rbind].
  destruct (open_with c kc 1 _ x2) as [st|] eqn:Eo; [|discriminate]. cbn [or_err rbind].
  apply (p_open_len c P) in Eo. rewrite public_from_ok by lia. cbn [or_panic rbind].
  destruct (mix_key c _ eph st) as [n key].
  destruct (slice_ok p' 64 (length p')) as (x3 & -> & _); [lia|lia|]. cbn [or_panic rbind].
  destruct (open_with c key 0 (n_h n) x3) as [y|]; [|discriminate]. cbn [or_err rbind].
  destruct (s_parse _ y); [|discriminate]. cbn [or_err rbind]. destruct (find_info l); [|discriminate]. cbn [or_err rbind].
  destruct (ssu2_intro_key r); [|discriminate]. cbn [or_err rbind].
  destruct (data_keys c n) as [[? ?] ?]. destruct (direction_keys c _) as [? ?]. destruct (direction_keys c _) as [? ?].
  unfold build_packet. cbn [seal session_crypt].
  match goal with |- context [(length ?s <? 24)%nat] => set (z := s) end.
  assert (Lz : length z = 24%nat) by (unfold z; rewrite (p_seal_len c P); reflexivity).
  destruct (Nat.ltb_spec (length z) 24); [lia|]. discriminate.
Qed.
Lemma on_retry_safe s l i rm r now p : (64 <= length p)%nat -> rnd_ok r -> on_retry c ks s l i rm r now p <> Panic.
Proof.
  intros H (_ & Hp & _). unfold on_retry.
  destruct (session_header_ok (ou_intro s) (ou_intro s) p H) as [->|(k & p' & -> & L)]; [discriminate|]. cbn [rbind].
  destruct k; try discriminate.
  destruct (slice_ok p' 32 (length p')) as (x3 & -> & _); [lia|lia|]. cbn [or_panic rbind].
  destruct (open_with c _ _ _ x3) as [y|]; [|discriminate]. cbn [or_err rbind].
  destruct (mix_key c _ (r_eph r) rm) as [n' key'].
  match goal with |- context [mask_first ks ?a ?b ?h ?s] => destruct (mask_first_ok a b h s) as [z ->] end.
  { rewrite (sealed_length c P), !app_length, date_length, padding_length. lia. }
  discriminate.
Qed.
Lemma on_session_created_safe s eph l i now p : (64 <= length p)%nat -> (3 <= length i)%nat ->
  on_session_created c ks s eph l i now p <> Panic.
Proof.
  intros H Hi. unfold on_session_created.
  match goal with |- context [session_header ks ?a ?b p] =>
    destruct (session_header_ok a b p H) as [->|(k & p' & -> & L)] end; [discriminate|]. cbn [rbind].
  destruct k; try discriminate.
  destruct (slice_ok p' 0 32) as (x1 & -> & _); [lia|lia|]. destruct (slice_ok p' 32 64) as (x2 & -> & _); [lia|lia|].
  cbn [or_panic rbind]. destruct (mix_key c _ eph eph0) as [n key].
  destruct (slice_ok p' 64 (length p')) as (x3 & -> & _); [lia|lia|]. cbn [or_panic rbind].
  destruct (open_with c key 0 (n_h n) x3) as [y|]; [|discriminate]. cbn [or_err rbind].
  destruct (mix_key c _ l eph0) as [n' key'].
  match goal with |- context [mask_first ks ?a ?b ?h ?s] => destruct (mask_first_ok a b h s) as [z ->] end.
  { rewrite (sealed_length c P), info_length. lia. }
  discriminate.
Qed.

(** Every dialing session will present a router info that is at least three bytes long. *)
Definition out_ok (s : out_session) : Prop :=
  match ou_st s with
  | OutRetry _ i _ | OutCreated _ _ i => (3 <= length i)%nat
  | _ => True
  end.
Definition slot_ok (x : slot) : Prop := match x with SlotOut s => out_ok s | _ => True end.
Definition sock_ok (u : usock) : Prop :=
  (3 <= length (us_info u))%nat /\ forall id x, nget id (us_sessions u) = Some x -> slot_ok x.
Lemma with_ok u id x : sock_ok u -> slot_ok x -> sock_ok (with_session u id x).
Proof.
  intros [H1 H2] Hx. split; [exact H1|]. intros j y. destruct (N.eq_dec j id) as [->|Hne].
  - rewrite nget_with. intros E. now injection E as <-.
  - rewrite nget_with_other by exact Hne. apply H2.
Qed.
Lemma out_packet_safe s r now p : (64 <= length p)%nat -> rnd_ok r -> out_ok s ->
  out_packet c ks s r now p <> Panics /\ forall s' o, out_packet c ks s r now p = Goes s' o -> out_ok s'.
Proof.
  intros H Hr Hs. unfold out_packet, out_ok in *. destruct (ou_st s) as [l i rm|eph l i| |] eqn:Es.
  - pose proof (on_retry_safe s l i rm r now p H Hr) as Hn.
    destruct (on_retry c ks s l i rm r now p) as [[s' o]| |] eqn:E; [|split; [discriminate|]|contradiction].
    + split; [discriminate|]. intros s1 o1 G. injection G as <- <-.
      unfold on_retry in E. destruct (session_header ks _ _ p) as [[k p']| |]; try discriminate. cbn [rbind] in E.
      destruct k; try discriminate.
      destruct (slice p' 32 (length p')); try discriminate. cbn [or_panic rbind] in E.
      destruct (open_with c _ _ _ l0); try discriminate. cbn [or_err rbind] in E.
      destruct (mix_key c _ (r_eph r) rm) as [n' key'].
      destruct (mask_first ks _ _ _ _); try discriminate. cbn [rbind] in E. injection E as <- <-. exact Hs.
    + intros s1 o1 G. injection G as <- <-. exact I.
  - pose proof (on_session_created_safe s eph l i now p H Hs) as Hn.
    destruct (on_session_created c ks s eph l i now p) as [[s' o]| |] eqn:E; [|split; [discriminate|]|contradiction].
    + split; [discriminate|]. intros s1 o1 G. injection G as <- <-.
      unfold on_session_created in E. destruct (session_header ks _ _ p) as [[k p']| |]; try discriminate. cbn [rbind] in E.
      destruct k; try discriminate.
      destruct (slice p' 0 32); try discriminate. destruct (slice p' 32 64); try discriminate. cbn [or_panic rbind] in E.
      destruct (mix_key c _ eph eph0) as [n key].
      destruct (slice p' 64 (length p')); try discriminate. cbn [or_panic rbind] in E.
      destruct (open_with c _ _ _ l2); try discriminate. cbn [or_err rbind] in E.
      destruct (mix_key c _ l eph0) as [n' key'].
      destruct (mask_first ks _ _ _ _); try discriminate. cbn [rbind] in E. injection E as <- <-. exact I.
    + intros s1 o1 G. injection G as <- <-. exact I.
  - split; discriminate.
  - split; discriminate.
Qed.
Lemma in_packet_safe s r now p : (64 <= length p)%nat -> rnd_ok r -> in_packet c ks s r now p <> Panics.
Proof.
  intros H Hr. unfold in_packet. destruct (in_st s).
  - pose proof (on_session_request_safe s r now p H Hr). destruct (on_session_request c ks s r now p) as [[? ?]| |]; congruence.
  - pose proof (on_session_confirmed_safe s eph k_header_2 k_created p H).
    destruct (on_session_confirmed c ks s eph k_header_2 k_created p) as [?| |]; congruence.
  - discriminate.
Qed.
Lemma on_over_safe u id x : sock_ok u -> exists u' o ev, on_over u id x = Some (u', o, ev) /\ sock_ok u'.
Proof.
  intros H. destruct x as [x p t|x|[r|]]; cbn [on_over]; do 3 eexists; (split; [reflexivity|]); apply with_ok; try exact I; exact H.
Qed.
Lemma to_session_safe u r now id x p : (64 <= length p)%nat -> rnd_ok r -> sock_ok u -> slot_ok x ->
  exists u' o ev, to_session c ks u r now id x p = Some (u', o, ev) /\ sock_ok u'.
Proof.
  intros H Hr Hu Hx. destruct x as [s|s|x|]; cbn [to_session].
  - pose proof (in_packet_safe s r now p H Hr) as Hn. destruct (in_packet c ks s r now p) as [s' o|y|]; [| |contradiction].
    + do 3 eexists. split; [reflexivity|]. apply with_ok; [exact Hu|exact I].
    + apply on_over_safe; exact Hu.
  - destruct (out_packet_safe s r now p H Hr Hx) as [Hn Ho].
    destruct (out_packet c ks s r now p) as [s' o|y|]; [| |contradiction].
    + do 3 eexists. split; [reflexivity|]. apply with_ok; [exact Hu|]. exact (Ho s' o eq_refl).
    + apply on_over_safe; exact Hu.
  - do 3 eexists. split; [reflexivity|exact Hu].
  - do 3 eexists. split; [reflexivity|exact Hu].
Qed.
Lemma reader_dst_length r : length (hr_pkt (snd (reader_dst ks r))) = length (hr_pkt r).
Proof. cbn [reader_dst snd hr_pkt]. apply mask_at_length. Qed.
Lemma datagram_safe u r now a d : (length d < 24 \/ 64 <= length d)%nat -> rnd_ok r -> sock_ok u ->
  exists u' o ev, on_datagram c ks u r now a d = Some (u', o, ev) /\ sock_ok u'.
Proof.
  intros H Hr Hu. unfold on_datagram, reader_new. rewrite firstn_length.
  destruct (Nat.ltb_spec (Nat.min 2048 (length d)) 24); [do 3 eexists; split; [reflexivity|exact Hu]|].
  set (rd0 := mkReader _ _ _ _).
  assert (L0 : (64 <= length (hr_pkt rd0))%nat) by (cbn [rd0 hr_pkt]; rewrite firstn_length; lia).
  pose proof (reader_dst_length rd0) as L1. destruct (reader_dst ks rd0) as [id rd1]. cbn [snd] in L1.
  destruct (nget id (us_sessions u)) as [x|] eqn:Eg.
  { apply to_session_safe; [lia|exact Hr|exact Hu|]. apply (proj2 Hu id). exact Eg. }
  destruct (reader_parse_ok (us_intro u) rd1 ltac:(lia)) as (o & rd2 & -> & L2).
  destruct o as [k|].
  - destruct k; try (do 3 eexists; split; [reflexivity|exact Hu]).
    match goal with |- context [in_new c ks ?a ?n ?d ?s ?m ?i ?t ?p ?r] =>
      pose proof (in_new_safe a n d s m i t p r ltac:(lia) Hr) as Hn; destruct (in_new c ks a n d s m i t p r) as [[s' o]| |] end;
      [| |contradiction].
    + do 3 eexists. split; [reflexivity|]. apply with_ok; [exact Hu|exact I].
    + do 3 eexists. split; [reflexivity|exact Hu].
  - destruct (lookup_addr a (us_outbound u)) as [i|]; [|do 3 eexists; split; [reflexivity|exact Hu]].
    assert (L3 : length (hr_pkt (reader_reset ks i rd2)) = length (hr_pkt rd2)).
    { unfold reader_reset. cbn [hr_pkt]. now rewrite !mask_at_length. }
    pose proof (reader_dst_length (reader_reset ks i rd2)) as L4. destruct (reader_dst ks (reader_reset ks i rd2)) as [id' rd3].
    cbn [snd] in L4. destruct (nget id' (us_sessions u)) as [x|] eqn:Eg'; [|do 3 eexists; split; [reflexivity|exact Hu]].
    apply to_session_safe; [lia|exact Hr|exact Hu|]. apply (proj2 Hu id'). exact Eg'.
Qed.
Lemma timer_safe u id now : sock_ok u -> exists u' o ev, on_timer u id now = Some (u', o, ev) /\ sock_ok u'.
Proof.
  intros Hu. unfold on_timer. destruct (nget id (us_sessions u)) as [[s|s|x|]|] eqn:Eg;
    try (do 3 eexists; split; [reflexivity|exact Hu]).
  - destruct (rtx_poll (in_rtx s) now) as [x [|p|]]; do 3 eexists; (split; [reflexivity|]); try exact Hu; apply with_ok; auto; exact I.
  - pose proof (proj2 Hu id _ Eg) as Hs. cbn [slot_ok] in Hs.
    destruct (rtx_poll (ou_rtx s) now) as [x [|p|]]; do 3 eexists; (split; [reflexivity|]); try exact Hu; apply with_ok; auto; exact I.
Qed.
Lemma connect_safe u router src dst r now : sock_ok u -> rnd_ok r ->
  (exists v a, publishes c router v a) ->
  exists u' o ev, connect c ks u router src dst r now = Some (u', o, ev) /\ sock_ok u'.
Proof.
  intros [Hu1 Hu2] Hr (v & a & Hi & Hs & ra & Hra & Hsock). unfold connect. rewrite Hi, Hs, Hra, Hsock.
  unfold out_new. rewrite (token_request_ok c ks P K (us_intro v) [] src dst r Hr). cbn [rbind].
  do 3 eexists. split; [reflexivity|]. split; [exact Hu1|]. intros id x. cbn [us_sessions].
  destruct (N.eq_dec id src) as [->|Hne].
  - rewrite nget_with. intros E. injection E as <-. cbn [slot_ok]. unfold out_ok. cbn [ou_st]. exact Hu1.
  - rewrite nget_with_other by exact Hne. apply Hu2.
Qed.

(** ** A poisoned session *)
Definition dead (x : slot) : Prop :=
  match x with SlotIn s => in_st s = InPoisoned | SlotClosed => True | _ => False end.
Lemma dead_with u j x id y : dead y -> nget id (us_sessions u) = Some y ->
  (j = id -> dead x) -> exists z, nget id (us_sessions (with_session u j x)) = Some z /\ dead z.
Proof.
  intros Hy Hg Hx. destruct (N.eq_dec id j) as [->|Hne].
  - exists x. split; [apply nget_with|]. now apply Hx.
  - exists y. split; [|exact Hy]. now rewrite nget_with_other.
Qed.
Lemma dead_over u j st id y u' o ev : dead y -> nget id (us_sessions u) = Some y ->
  (j = id -> st = SessionTerminated None) -> on_over u j st = Some (u', o, ev) ->
  exists z, nget id (us_sessions u') = Some z /\ dead z.
Proof.
  intros Hy Hg Hj E. destruct st as [x p t|x|[r|]]; cbn [on_over] in E; injection E as <- <- <-;
    apply (dead_with u j _ id y Hy Hg); intros ->; try exact I; specialize (Hj eq_refl); discriminate.
Qed.
Lemma dead_to_session u r now j x p id y u' o ev : dead y -> nget id (us_sessions u) = Some y ->
  nget j (us_sessions u) = Some x ->
  to_session c ks u r now j x p = Some (u', o, ev) -> exists z, nget id (us_sessions u') = Some z /\ dead z.
Proof.
  intros Hy Hg Hj E. destruct (N.eq_dec j id) as [->|Hne].
  - assert (x = y) as -> by congruence. destruct y as [s|s|?|]; cbn [dead] in Hy; try contradiction; cbn [to_session] in E.
    + unfold in_packet in E. rewrite Hy in E. apply (dead_over u id _ id (SlotIn s) u' o ev Hy Hg (fun _ => eq_refl) E).
    + injection E as <- <- <-. eauto.
  - destruct x as [s|s|x|]; cbn [to_session] in E.
    + destruct (in_packet c ks s r now p) as [s' q|st|]; [|apply (dead_over u j st id y u' o ev Hy Hg (fun F => match Hne F with end) E)|discriminate].
      injection E as <- <- <-. apply (dead_with u j _ id y Hy Hg). intros; contradiction.
    + destruct (out_packet c ks s r now p) as [s' q|st|]; [|apply (dead_over u j st id y u' o ev Hy Hg (fun F => match Hne F with end) E)|discriminate].
      injection E as <- <- <-. apply (dead_with u j _ id y Hy Hg). intros; contradiction.
    + injection E as <- <- <-. eauto.
    + injection E as <- <- <-. eauto.
Qed.
Lemma dead_step u op u' o ev id y : dead y -> nget id (us_sessions u) = Some y ->
  (forall router dst r now, op <> UConnect router id dst r now) ->
  ustep_of c ks u op = Some (u', o, ev) -> exists z, nget id (us_sessions u') = Some z /\ dead z.
Proof.
  intros Hy Hg Hop E. destruct op as [r now a d|router src dst r now|j now]; cbn [ustep_of] in E.
  - unfold on_datagram in E. destruct (reader_new (us_intro u) (firstn 2048 d)) as [rd0| |]; [|injection E as <- <- <-; eauto|discriminate].
    destruct (reader_dst ks rd0) as [j rd1]. destruct (nget j (us_sessions u)) as [x|] eqn:Ej.
    { exact (dead_to_session u r now j x _ id y u' o ev Hy Hg Ej E). }
    assert (Hji : j = id -> False) by congruence.
    destruct (reader_parse ks (us_intro u) rd1) as [[k rd2]| |]; [|injection E as <- <- <-; eauto|discriminate].
    destruct k as [k|].
    + destruct k; try (injection E as <- <- <-; eauto).
      match type of E with context [in_new c ks ?a ?n ?d ?s ?m ?i ?t ?p ?r] =>
        destruct (in_new c ks a n d s m i t p r) as [[s' q]| |] end; [|injection E as <- <- <-; eauto|discriminate].
      injection E as <- <- <-. apply (dead_with u j _ id y Hy Hg). intros F; destruct (Hji F).
    + destruct (lookup_addr a (us_outbound u)) as [i|]; [|injection E as <- <- <-; eauto].
      destruct (reader_dst ks (reader_reset ks i rd2)) as [j' rd3].
      destruct (nget j' (us_sessions u)) as [x|] eqn:Ej'; [|injection E as <- <- <-; eauto].
      exact (dead_to_session u r now j' x _ id y u' o ev Hy Hg Ej' E).
  - unfold connect in E. destruct (ssu2_intro_key router); [|discriminate]. destruct (ssu2_static_key router); [|discriminate].
    destruct (rf_ssu2 router); [|discriminate]. destruct (ra_socket r0); [|discriminate].
    destruct (out_new c ks _ _ _ _ _ _ _ _ _ _ _) as [[s q]| |]; try discriminate. injection E as <- <- <-.
    cbn [us_sessions]. apply (dead_with u src _ id y Hy Hg). intros ->. destruct (Hop router dst r now eq_refl).
  - unfold on_timer in E. destruct (nget j (us_sessions u)) as [[s|s|x|]|] eqn:Ej; try (injection E as <- <- <-; eauto).
    + destruct (rtx_poll (in_rtx s) now) as [x [|p|]]; injection E as <- <- <-; eauto; apply (dead_with u j _ id y Hy Hg);
        intros ->; [|exact I]. cbn [dead in_st]. assert (y = SlotIn s) as -> by congruence. exact Hy.
    + destruct (rtx_poll (ou_rtx s) now) as [x [|p|]]; injection E as <- <- <-; eauto; apply (dead_with u j _ id y Hy Hg);
        intros ->; [|exact I]. assert (y = SlotOut s) as -> by congruence. destruct Hy.
Qed.
Lemma dead_run u ops u' o ev id y : dead y -> nget id (us_sessions u) = Some y ->
  (forall router dst r now, ~ In (UConnect router id dst r now) ops) ->
  urun c ks u ops u' o ev -> exists z, nget id (us_sessions u') = Some z /\ dead z.
Proof.
  intros Hy Hg Hop R. revert y Hy Hg. induction R as [u|u op u1 s1 e1 ops u2 s2 e2 E R IH]; intros y Hy Hg; [eauto|].
  destruct (dead_step u op u1 s1 e1 id y Hy Hg) as (z & Hz & Dz); [intros router dst r now ->; eapply Hop; left; reflexivity|exact E|].
  apply (IH (fun router dst r now F => Hop router dst r now (or_intror F)) z Dz Hz).
Qed.

(** ** What is reported *)
(** Every dialing session goes by the router's own id. *)
Definition named (u : usock) (x : slot) : Prop := match x with SlotOut s => ou_router s = us_router u | _ => True end.
Definition all_named (u : usock) : Prop := forall id x, nget id (us_sessions u) = Some x -> named u x.
Definition ev_ok (u : usock) (e : uevent) : Prop :=
  match e with
  | Established false r | Failure r => r = us_router u
  | Established true r => exists info i, parse_info c info = Some i /\ r = ri_hash (rf_identity i)
  | ToSession _ _ => True
  end.
Lemma named_with u id x : all_named u -> named u x -> all_named (with_session u id x).
Proof.
  intros H Hx j y. destruct (N.eq_dec j id) as [->|Hne].
  - rewrite nget_with. intros E. injection E as <-. exact Hx.
  - rewrite nget_with_other by exact Hne. intros E. exact (H j y E).
Qed.
Lemma same_router u id x : us_router (with_session u id x) = us_router u. Proof. reflexivity. Qed.

(** the router infos among the blocks of a packet have been parsed, and so verified *)
Lemma bind_some {X Y} (p : parser X) (f : X -> parser Y) b y r : bind p f b = Some (y, r) ->
  exists x b', p b = Some (x, b') /\ f x b' = Some (y, r).
Proof. apply bind_inv. Qed.
Lemma s_block_info b r rest : s_block e b = Some (SRouterInfo r, rest) -> exists info, parse_info c info = Some r.
Proof.
  intros H. unfold s_block in H. apply bind_some in H as (t & b1 & _ & H).
  assert (Hi : forall b2 q, s_router_info e b2 = Some (SRouterInfo r, q) -> exists info, parse_info c info = Some r).
  { intros b2 q G. unfold s_router_info in G.
    apply bind_some in G as (size & b3 & _ & G). apply bind_some in G as (? & b4 & _ & G).
    apply bind_some in G as (flag & b5 & _ & G). apply bind_some in G as (? & b6 & _ & G).
    apply bind_some in G as (info & b7 & _ & G). apply bind_some in G as (? & b8 & _ & G).
    apply bind_some in G as (r' & b9 & G1 & G). injection G as <- <-.
    exists info. unfold parse_info. fold e. unfold opt in G1. destruct (parse_rinfo e info) as [[r2 ?]|]; [|discriminate].
    now injection G1 as <- <-. }
  Ltac other H := repeat (apply bind_some in H as (? & ? & _ & H)); try discriminate.
  destruct (t =? 0). { unfold s_date_time in H. other H. }
  destruct (t =? 1). { unfold s_options in H. other H. }
  destruct (t =? 2). { exact (Hi _ _ H). }
  destruct (t =? 3). { unfold s_i2np in H. other H. }
  destruct (t =? 4). { unfold s_first in H. other H. }
  destruct (t =? 5). { unfold s_follow in H. other H. }
  destruct (t =? 6). { unfold s_termination in H. other H. }
  destruct (t =? 12).
  { unfold s_ack in H. apply bind_some in H as (size & ? & _ & H). apply bind_some in H as (? & ? & _ & H).
    apply bind_some in H as (? & ? & _ & H). cbv zeta in H. destruct (_ =? 0); other H. }
  destruct (t =? 17). { unfold s_new_token in H. other H. }
  destruct (t =? 18). { unfold s_path_challenge in H. other H. }
  destruct (t =? 19). { unfold s_path_response in H. other H. }
  destruct (t =? 20). { unfold s_first_packet_number in H. other H. }
  destruct (t =? 21). { unfold s_congestion in H. other H. }
  destruct (t =? 254). { unfold s_padding in H. other H. }
  destruct (_ || _). { unfold s_unsupported in H. other H. }
  discriminate.
Qed.
Lemma find_info_parsed r : forall fuel b bs, s_blocks e fuel b = Some bs -> find_info bs = Some r ->
  exists info, parse_info c info = Some r.
Proof.
  induction fuel as [|n IH]; intros b bs H F; cbn [s_blocks] in H; [discriminate|].
  destruct (s_block e b) as [[x rest]|] eqn:E; [|discriminate].
  assert (Hx : forall r', x = SRouterInfo r' -> exists info, parse_info c info = Some r').
  { intros r' ->. exact (s_block_info _ _ _ E). }
  destruct rest as [|y t].
  - injection H as <-. destruct x; cbn [find_info] in F; try discriminate. injection F as <-. now apply Hx.
  - destruct (s_blocks e n (y :: t)) as [bs'|] eqn:E'; cbn [option_map] in H; [|discriminate]. injection H as <-.
    destruct x; cbn [find_info] in F; try (exact (IH _ _ E' F)). injection F as <-. now apply Hx.
Qed.
Lemma confirmed_event s eph k2 kc p st : on_session_confirmed c ks s eph k2 kc p = Ok st ->
  exists x ack info i, st = NewInbound x ack (in_addr s) /\ parse_info c info = Some i /\
    sc_router x = ri_hash (rf_identity i).
Proof.
  intros E. unfold on_session_confirmed in E.
  destruct (session_header ks _ _ p) as [[k p']| |]; try discriminate. cbn [rbind] in E.
  destruct k; try discriminate. destruct (negb (pkt_num =? 0)); [discriminate|].
  destruct (slice p' 0 16); [|discriminate]. cbn [or_panic rbind] in E.
  destruct (slice p' 16 64); [|discriminate]. cbn [or_panic rbind] in E.
  destruct (open_with c kc 1 _ l0) as [st0|]; [|discriminate]. cbn [or_err rbind] in E.
  destruct (public_from st0) as [st1|]; [|discriminate]. cbn [or_panic rbind] in E.
  destruct (mix_key c _ eph st1) as [n key].
  destruct (slice p' 64 (length p')); [|discriminate]. cbn [or_panic rbind] in E.
  destruct (open_with c key 0 (n_h n) l1) as [y|]; [|discriminate]. cbn [or_err rbind] in E.
  fold e in E. destruct (s_parse e y) as [bs|] eqn:Ep; [|discriminate]. cbn [or_err rbind] in E.
  destruct (find_info bs) as [ri|] eqn:Ef; [|discriminate]. cbn [or_err rbind] in E.
  destruct (ssu2_intro_key ri); [|discriminate]. cbn [or_err rbind] in E.
  destruct (data_keys c n) as [[? ?] ?]. destruct (direction_keys c _) as [? ?]. destruct (direction_keys c _) as [? ?].
  destruct (build_packet _ _ _ _ _ _) as [ack|]; [|discriminate]. cbn [or_panic rbind] in E. injection E as <-.
  destruct (find_info_parsed ri _ _ _ Ep Ef) as [info Hi]. do 4 eexists. split; [reflexivity|]. split; [exact Hi|reflexivity].
Qed.
Lemma out_packet_named u s r now p : ou_router s = us_router u ->
  match out_packet c ks s r now p with
  | Goes s' _ => ou_router s' = us_router u
  | Over (NewOutbound x) => sc_router x = us_router u
  | Over (SessionTerminated (Some x)) => x = us_router u
  | Over _ => False
  | Panics => True
  end.
Proof.
  intros H. unfold out_packet. destruct (ou_st s) as [l i rm|eph l i| |].
  - destruct (on_retry c ks s l i rm r now p) as [[s' o]| |] eqn:E; [|exact H|exact I].
    unfold on_retry in E. destruct (session_header ks _ _ p) as [[k p']| |]; try discriminate. cbn [rbind] in E.
    destruct k; try discriminate.
    destruct (slice p' 32 (length p')); try discriminate. cbn [or_panic rbind] in E.
    destruct (open_with c _ _ _ l0); try discriminate. cbn [or_err rbind] in E.
    destruct (mix_key c _ (r_eph r) rm) as [n' key'].
    destruct (mask_first ks _ _ _ _); try discriminate. cbn [rbind] in E. injection E as <- <-. exact H.
  - destruct (on_session_created c ks s eph l i now p) as [[s' o]| |] eqn:E; [|exact H|exact I].
    unfold on_session_created in E. destruct (session_header ks _ _ p) as [[k p']| |]; try discriminate. cbn [rbind] in E.
    destruct k; try discriminate.
    destruct (slice p' 0 32); try discriminate. destruct (slice p' 32 64); try discriminate. cbn [or_panic rbind] in E.
    destruct (mix_key c _ eph eph0) as [n key].
    destruct (slice p' 64 (length p')); try discriminate. cbn [or_panic rbind] in E.
    destruct (open_with c _ _ _ l2); try discriminate. cbn [or_err rbind] in E.
    destruct (mix_key c _ l eph0) as [n' key'].
    destruct (mask_first ks _ _ _ _); try discriminate. cbn [rbind] in E. injection E as <- <-. exact H.
  - unfold on_data. destruct (data_keys c _) as [[? ?] ?]. exact H.
  - exact H.
Qed.
Definition kept (u u' : usock) : Prop :=
  us_intro u' = us_intro u /\ us_static u' = us_static u /\ us_info u' = us_info u /\ us_router u' = us_router u.
Lemma kept_refl u : kept u u. Proof. repeat split. Qed.
Lemma kept_with u id x : kept u (with_session u id x). Proof. repeat split. Qed.
Lemma named_to_session u r now j x p u' o ev : all_named u -> nget j (us_sessions u) = Some x ->
  to_session c ks u r now j x p = Some (u', o, ev) -> all_named u' /\ kept u u' /\ Forall (ev_ok u) ev.
Proof.
  intros Hu Hj E. destruct x as [s|s|x|]; cbn [to_session] in E.
  - unfold in_packet in E. destruct (in_st s) as [tk|eph k2 kc|].
    + destruct (on_session_request c ks s r now p) as [[s' q]| |]; [| |discriminate]; injection E as <- <- <-;
        (split; [apply named_with; [exact Hu|exact I]|split; [apply kept_with|constructor]]).
    + destruct (on_session_confirmed c ks s eph k2 kc p) as [st| |] eqn:Ec; [| |discriminate].
      * destruct (confirmed_event _ _ _ _ _ _ Ec) as (x & ack & info & i & -> & Hi & Hx). cbn [on_over] in E. injection E as <- <- <-.
        split; [apply named_with; [exact Hu|exact I]|split; [apply kept_with|]]. constructor; [|constructor].
        cbn [ev_ok]. exists info, i. split; assumption.
      * injection E as <- <- <-. split; [apply named_with; [exact Hu|exact I]|split; [apply kept_with|constructor]].
    + cbn [on_over] in E. injection E as <- <- <-. split; [apply named_with; [exact Hu|exact I]|split; [apply kept_with|constructor]].
  - pose proof (Hu j _ Hj) as Hn. cbn [named] in Hn. pose proof (out_packet_named u s r now p Hn) as Ho.
    destruct (out_packet c ks s r now p) as [s' q|[x ack t|x|[x|]]|]; try contradiction; [| | |discriminate].
    + injection E as <- <- <-. split; [apply named_with; [exact Hu|exact Ho]|split; [apply kept_with|constructor]].
    + cbn [on_over] in E. injection E as <- <- <-.
      split; [apply named_with; [exact Hu|exact I]|split; [apply kept_with|]]. constructor; [exact Ho|constructor].
    + cbn [on_over] in E. injection E as <- <- <-.
      split; [apply named_with; [exact Hu|exact I]|split; [apply kept_with|]]. constructor; [exact Ho|constructor].
  - injection E as <- <- <-. split; [exact Hu|split; [apply kept_refl|]]. constructor; [exact I|constructor].
  - injection E as <- <- <-. split; [exact Hu|split; [apply kept_refl|constructor]].
Qed.
Lemma named_step u op u' o ev : all_named u -> ustep_of c ks u op = Some (u', o, ev) ->
  all_named u' /\ kept u u' /\ Forall (ev_ok u) ev.
Proof.
  intros Hu E.
  assert (Same : all_named u /\ kept u u /\ Forall (ev_ok u) []) by (split; [exact Hu|split; [apply kept_refl|constructor]]).
  destruct op as [r now a d|router src dst r now|j now]; cbn [ustep_of] in E.
  - unfold on_datagram in E. destruct (reader_new (us_intro u) (firstn 2048 d)) as [rd0| |]; [|injection E as <- <- <-; exact Same|discriminate].
    destruct (reader_dst ks rd0) as [j rd1]. destruct (nget j (us_sessions u)) as [x|] eqn:Ej.
    { exact (named_to_session u r now j x _ u' o ev Hu Ej E). }
    destruct (reader_parse ks (us_intro u) rd1) as [[k rd2]| |]; [|injection E as <- <- <-; exact Same|discriminate].
    destruct k as [k|].
    + destruct k; try (injection E as <- <- <-; exact Same).
      match type of E with context [in_new c ks ?a ?n ?d ?s ?m ?i ?t ?p ?r] =>
        destruct (in_new c ks a n d s m i t p r) as [[s' q]| |] end; [|injection E as <- <- <-; exact Same|discriminate].
      injection E as <- <- <-. split; [apply named_with; [exact Hu|exact I]|split; [apply kept_with|constructor]].
    + destruct (lookup_addr a (us_outbound u)) as [i|]; [|injection E as <- <- <-; exact Same].
      destruct (reader_dst ks (reader_reset ks i rd2)) as [j' rd3].
      destruct (nget j' (us_sessions u)) as [x|] eqn:Ej'; [|injection E as <- <- <-; exact Same].
      exact (named_to_session u r now j' x _ u' o ev Hu Ej' E).
  - unfold connect in E. destruct (ssu2_intro_key router); [|discriminate]. destruct (ssu2_static_key router); [|discriminate].
    destruct (rf_ssu2 router); [|discriminate]. destruct (ra_socket r0); [|discriminate].
    unfold out_new in E. destruct (token_request c ks l dst src r) as [pk| |]; cbn [rbind] in E; try discriminate. injection E as <- <- <-.
    split; [|split; [repeat split|constructor]].
    match goal with |- context [nput src ?x] => pose proof (named_with u src x Hu eq_refl) as Hw end. exact Hw.
  - unfold on_timer in E. destruct (nget j (us_sessions u)) as [[s|s|x|]|] eqn:Ej; try (injection E as <- <- <-; exact Same).
    + destruct (rtx_poll (in_rtx s) now) as [x [|p|]]; injection E as <- <- <-; try exact Same;
        (split; [apply named_with; [exact Hu|exact I]|split; [apply kept_with|constructor]]).
    + pose proof (Hu j _ Ej) as Hn. cbn [named] in Hn.
      destruct (rtx_poll (ou_rtx s) now) as [x [|p|]]; injection E as <- <- <-; try exact Same;
        (split; [apply named_with; [exact Hu|first [exact I|exact Hn]]|split; [apply kept_with|]]); [constructor|].
      constructor; [exact Hn|constructor].
Qed.
Lemma ev_ok_kept u u' x : kept u u' -> ev_ok u' x -> ev_ok u x.
Proof. intros (_ & _ & _ & H). destruct x as [[|] r|r|? ?]; cbn [ev_ok]; rewrite ?H; auto. Qed.
Lemma named_run u ops u' o ev : all_named u -> urun c ks u ops u' o ev -> all_named u' /\ kept u u' /\ Forall (ev_ok u) ev.
Proof.
  intros Hu R. induction R as [u|u op u1 s1 e1 ops u2 s2 e2 E R IH].
  - split; [exact Hu|split; [apply kept_refl|constructor]].
  - destruct (named_step _ _ _ _ _ Hu E) as (H1 & K1 & F1). destruct (IH H1) as (H2 & K2 & F2).
    split; [exact H2|]. split.
    + destruct K1 as (? & ? & ? & ?), K2 as (? & ? & ? & ?). repeat split; congruence.
    + apply Forall_app. split; [exact F1|]. eapply Forall_impl; [|exact F2]. intros x. now apply ev_ok_kept.
Qed.
End Proofs.
