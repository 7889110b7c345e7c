(** Tag sets: entries, key ids, and the lockstep of both ends. *)
From Coq Require Import List NArith Bool Arith Lia.
From Coq Require Import ZifyBool ZifyNat ZifyN.
From Verif Require Import Bytes NMap GarlicModel RatchetModel RatchetSpec.
Import ListNotations.
Open Scope N_scope.

(** ** Entries of a tag set *)

Lemma ratchet_root c k : kc_root (fst (ratchet_once c k)) = kc_root k.
Proof. reflexivity. Qed.
Lemma nth_ctx_root c k i : kc_root (nth_ctx c k i) = kc_root k.
Proof. induction i as [|i IH]; cbn [nth_ctx]; [reflexivity|]. now rewrite ratchet_root. Qed.

(** [issued c k t]: [t] has handed out the first [ts_index t] entries of the stream [k]. *)
Definition issued (c : rcrypt) (k : kctx) (t : tagset) : Prop :=
  ts_ctx t = nth_ctx c k (N.to_nat (ts_index t)) /\ ts_index t <= 65535.

Lemma issued_new c root key : issued c (key_context c root key) (ts_new c root key).
Proof. split; cbn; [reflexivity|lia]. Qed.

Lemma next_entry_some c k t t' e :
  issued c k t -> next_entry c t = (t', Some e) ->
  e = nth_entry c k (ts_id t) (ts_index t) /\ issued c k t' /\
  ts_index t' = ts_index t + 1 /\ ts_id t' = ts_id t /\ ts_state t' = ts_state t /\ ts_index t < 65535.
Proof.
  intros [Hk Hi] H. unfold next_entry in H. destruct (ts_index t =? 65535) eqn:E; [discriminate|].
  destruct (ratchet_once c (ts_ctx t)) as [k' [key tag]] eqn:R.
  apply pair_equal_spec in H as [<- H]. injection H as <-. cbn [ts_index ts_id ts_state ts_ctx].
  split; [|split; [split|]]; cbn [ts_index ts_ctx].
  - unfold nth_entry. rewrite <- Hk, R. reflexivity.
  - replace (N.to_nat (ts_index t + 1)) with (S (N.to_nat (ts_index t))) by lia.
    cbn [nth_ctx]. rewrite <- Hk, R. reflexivity.
  - lia.
  - repeat split; lia.
Qed.

Lemma next_entry_none c t t' :
  next_entry c t = (t', None) -> t' = t /\ ts_index t = 65535.
Proof.
  unfold next_entry. destruct (ts_index t =? 65535) eqn:E.
  - intro H. apply pair_equal_spec in H as [<- _]. split; [reflexivity|lia].
  - destruct (ratchet_once c (ts_ctx t)) as [k' [key tag]]. discriminate.
Qed.

(** The entries [a], [a+1], .. of a stream *)
Definition stream_from (c : rcrypt) (k : kctx) (set a : N) (n : nat) : list entry :=
  map (nth_entry c k set) (nseq a n).

Lemma gen_opt_spec c k : forall n t,
  issued c k t ->
  exists m, m = N.min (N.of_nat n) (65535 - ts_index t) /\
  snd (gen_opt c n t) = stream_from c k (ts_id t) (ts_index t) (N.to_nat m) /\
  issued c k (fst (gen_opt c n t)) /\
  ts_index (fst (gen_opt c n t)) = ts_index t + m /\
  ts_id (fst (gen_opt c n t)) = ts_id t /\
  ts_state (fst (gen_opt c n t)) = ts_state t.
Proof.
  induction n as [|n IH]; intros t Ht; cbn [gen_opt].
  - exists 0. cbn. repeat split; try lia; apply Ht.
  - destruct (next_entry c t) as [t' [e|]] eqn:E.
    + pose proof (next_entry_some _ _ _ _ _ Ht E) as (He & Ht' & Hi & Hid & Hst & Hlt).
      destruct (IH t' Ht') as (m & Hm & Hs & Hiss & Hix & Hid' & Hst').
      destruct (gen_opt c n t') as [t'' l]. cbn [fst snd] in *.
      exists (m + 1). split; [lia|]. split.
      * rewrite Hs, Hid, Hi, He. replace (N.to_nat (m + 1)) with (S (N.to_nat m)) by lia.
        cbn [stream_from nseq map]. reflexivity.
      * repeat split; try apply Hiss; try congruence; lia.
    + pose proof (next_entry_none _ _ _ E) as [-> H].
      destruct (IH t Ht) as (m & Hm & Hs & Hiss & Hix & Hid' & Hst').
      exists m. split; [lia|]. auto.
Qed.

Lemma stream_length c k set a n : length (stream_from c k set a n) = n.
Proof. unfold stream_from. rewrite map_length. apply nseq_length. Qed.

Lemma gen_spec c k n t t' l :
  issued c k t -> gen c n t = Some (t', l) ->
  l = stream_from c k (ts_id t) (ts_index t) n /\ issued c k t' /\
  ts_index t' = ts_index t + N.of_nat n /\ ts_id t' = ts_id t /\ ts_state t' = ts_state t.
Proof.
  intros Ht H. unfold gen in H. destruct (gen_opt_spec c k n t Ht) as (m & Hm & Hs & Hi & Hx & Hid & Hst).
  destruct (gen_opt c n t) as [t1 l1]. cbn [fst snd] in *.
  destruct (length l1 =? n)%nat eqn:E; [|discriminate]. injection H as <- <-.
  apply Nat.eqb_eq in E. rewrite Hs, stream_length in E.
  subst m. rewrite E in Hs. repeat split; try apply Hi; try assumption. lia.
Qed.

Lemma gen_works c k n t :
  issued c k t -> ts_index t + N.of_nat n <= 65535 -> exists r, gen c n t = Some r.
Proof.
  intros Ht Hn. unfold gen. destruct (gen_opt_spec c k n t Ht) as (m & Hm & Hs & _).
  destruct (gen_opt c n t) as [t1 l1]. cbn [fst snd] in *.
  rewrite Hs, stream_length. replace (N.to_nat m =? n)%nat with true; [now eexists|].
  symmetry. apply Nat.eqb_eq. lia.
Qed.

(** ** Key ids *)

Definition state_ids (s : key_state) (id : N) : Prop :=
  match s with
  | KUninit => id = 0
  | KAwaitRev s r _ => s <= MAX_KEY_ID /\ r <= MAX_KEY_ID /\
      ((s = 0 /\ r = 0 /\ id = 0) \/ (1 <= r /\ id = s + r))
  | KAwaitConf s r _ _ => s <= MAX_KEY_ID /\ r <= MAX_KEY_ID /\ 1 <= s /\ id = s + r
  | KActive s r _ _ => s <= MAX_KEY_ID /\ r <= MAX_KEY_ID /\ id = 1 + s + r
  | KPoisoned => True
  end.
Definition ids_ok (t : tagset) : Prop := state_ids (ts_state t) (ts_id t) /\ ts_id t <= 65535.

Lemma reinit_ids c t priv pub s r :
  s <= MAX_KEY_ID -> r <= MAX_KEY_ID ->
  ids_ok (ts_reinit c t priv pub s r) /\ ts_id (ts_reinit c t priv pub s r) = 1 + s + r.
Proof.
  unfold MAX_KEY_ID. intros Hs Hr. unfold ids_ok, ts_reinit. cbn [ts_state ts_id state_ids].
  rewrite N.mod_small by lia. unfold MAX_KEY_ID. lia.
Qed.

Lemma try_next_key_ids c t p t' r :
  ids_ok t -> try_next_key c t p = (t', r) -> ids_ok t' /\ ts_id t' = ts_id t /\ ts_index t' = ts_index t
   /\ ts_ctx t' = ts_ctx t.
Proof.
  intros [H H'] E. unfold try_next_key in E.
  destruct (ts_index t <=? RATCHET_THRESHOLD); [apply pair_equal_spec in E as [<- _]; now repeat split|].
  destruct (ts_state t) as [|s0 r0 a|s0 r0 a b|s0 r0 a b|] eqn:Es; cbn [state_ids] in H.
  - apply pair_equal_spec in E as [<- _]. unfold ids_ok, ts_with_state. cbn. unfold MAX_KEY_ID.
    repeat split; try lia. 
  - apply pair_equal_spec in E as [<- _]. unfold ids_ok. rewrite Es. cbn. now repeat split.
  - apply pair_equal_spec in E as [<- _]. unfold ids_ok. rewrite Es. cbn. now repeat split.
  - unfold MAX_KEY_ID in *. 
    destruct (ts_id t mod 2 =? 0) eqn:Em; cbn [negb] in E.
    + destruct (32767 <? r0 + 1) eqn:El; apply pair_equal_spec in E as [<- _];
        unfold ids_ok, ts_with_state; cbn; unfold MAX_KEY_ID; repeat split; try lia.
    + destruct (32767 <? s0 + 1) eqn:El; apply pair_equal_spec in E as [<- _];
        unfold ids_ok, ts_with_state; cbn; unfold MAX_KEY_ID; repeat split; try lia.
  - apply pair_equal_spec in E as [<- _]. unfold ids_ok. rewrite Es. cbn. now repeat split.
Qed.

Lemma handle_next_key_ids c t k p t' r :
  ids_ok t -> handle_next_key c t k p = (t', r) -> ids_ok t' /\ ts_id t <= ts_id t'.
Proof.
  intros [H H'] E. unfold handle_next_key in E.
  assert (ids_ok (ts_with_state t KPoisoned) /\ ts_id t <= ts_id (ts_with_state t KPoisoned)) as HP
    by (unfold ids_ok, ts_with_state; cbn; lia).
  assert (ids_ok t /\ ts_id t <= ts_id t) as HT by (unfold ids_ok; repeat split; auto; lia).
  assert (forall a b s0 r0, s0 <= MAX_KEY_ID -> r0 <= MAX_KEY_ID -> ts_id t <= 1 + s0 + r0 ->
          ids_ok (ts_reinit c t a b s0 r0) /\ ts_id t <= ts_id (ts_reinit c t a b s0 r0)) as HR.
  { intros a b s0 r0 ? ? ?. destruct (reinit_ids c t a b s0 r0) as [? ->]; auto. }
  destruct (ts_state t) as [|s0 r0 a|s0 r0 a b|s0 r0 a b|] eqn:Es; cbn [state_ids] in H;
    destruct k as [id [key|] [|]|id [key|]];
    try (apply pair_equal_spec in E as [<- _]; first [exact HP|exact HT]).
  - destruct (id =? 0); apply pair_equal_spec in E as [<- _]; [|exact HP].
    apply HR; unfold MAX_KEY_ID; lia.
  - apply pair_equal_spec in E as [<- _]. apply HR; lia.
  - apply pair_equal_spec in E as [<- _]. apply HR; lia.
  - destruct (s0 <? id) eqn:E1; [|apply pair_equal_spec in E as [<- _]; exact HT].
    destruct (MAX_KEY_ID <? id) eqn:E2; apply pair_equal_spec in E as [<- _]; [exact HP|].
    apply HR; lia.
  - destruct (r0 <? id) eqn:E1; [|apply pair_equal_spec in E as [<- _]; exact HT].
    destruct (MAX_KEY_ID <? id) eqn:E2; apply pair_equal_spec in E as [<- _]; [exact HP|].
    apply HR; lia.
Qed.
