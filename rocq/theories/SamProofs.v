(** Proofs about the SAM model. *)
From Coq Require Import Ascii String.
From Coq Require Import List NArith Bool Lia Arith ZifyBool ZifyNat ZifyN.
From Verif Require Import ListUtil Bytes PrimModel PrimSpec PrimProofs EncModel EncProofs I2cpModel I2cpSpec
  I2cpProofs SamModel SamSpec.
Import ListNotations.
Local Open Scope list_scope.
Open Scope N_scope.

(** ** Parsing arguments *)
Lemma letter_alpha b : letter b <-> is_alpha b = true.
Proof. unfold letter, is_alpha, rng. lia. Qed.

Lemma starts_with_app p r : starts_with p (p ++ r) = true.
Proof. induction p; cbn; auto. rewrite N.eqb_refl. auto. Qed.

Lemma span_app f a r : Forall (fun b => f b = true) a ->
  match r with [] => True | b :: _ => f b = false end -> span f (a ++ r) = (a, r).
Proof.
  induction 1 as [|b a Hb Ha IH]; intros Hr; cbn [app span].
  - destruct r as [|b r]; [reflexivity|]. cbn [span]. now rewrite Hr.
  - rewrite Hb, (IH Hr). reflexivity.
Qed.

Lemma parse_key_app k r : key_ok k -> match r with [] => True | b :: _ => key_more b = false end ->
  parse_key (k ++ r) = Some (k, r).
Proof.
  intros (b & t & -> & Hb & Ht) Hr. cbn [app parse_key].
  assert (key_start b = true) as ->.
  { unfold key_start. destruct Hb as [Hb|Hb]; [apply letter_alpha in Hb; now rewrite Hb|].
    subst. reflexivity. }
  rewrite (span_app key_more t r); [reflexivity| |exact Hr].
  eapply Forall_impl; [|exact Ht]. intros x Hx. cbv beta in Hx. unfold key_more.
  destruct Hx as [Hx|[Hx|[Hx|Hx]]].
  - apply letter_alpha in Hx. now rewrite Hx.
  - unfold is_digit, rng, digit in *. lia.
  - subst. reflexivity.
  - subst. reflexivity.
Qed.

(** What follows an argument: the end, or a separator. *)
Definition ends (r : list N) : Prop := match r with [] => True | b :: _ => b = 32 \/ b = 9 end.

Lemma ws_visible b r : 33 <= b <= 126 -> ws_at (b :: r) = false.
Proof.
  intros H. unfold ws_at, rng. destruct ((9 <=? b) && (b <=? 13) || (b =? 32)) eqn:E; [lia|].
  assert ((b =? 194) = false) as -> by lia. assert ((b =? 225) = false) as -> by lia.
  assert ((b =? 226) = false) as -> by lia. assert ((b =? 227) = false) as -> by lia.
  destruct r as [|x r]; [reflexivity|]. cbn [andb]. destruct r; reflexivity.
Qed.

Lemma raw_span_app v r : Forall (fun b => 33 <= b <= 126) v -> ends r -> raw_span (v ++ r) = (v, r).
Proof.
  induction 1 as [|b v Hb Hv IH]; intros Hr; cbn [app].
  - destruct r as [|x r]; [reflexivity|]. cbn [ends] in Hr.
    destruct Hr as [-> | ->]; reflexivity.
  - cbn [raw_span]. rewrite (ws_visible b (v ++ r) Hb), (IH Hr). reflexivity.
Qed.

Lemma esc_scan_app v r : Forall (fun b => b <> 34 /\ b <> 92) v -> esc_scan (v ++ 34 :: r) = Some (v, 34 :: r).
Proof.
  induction 1 as [|b v [H1 H2] Hv IH]; cbn [app esc_scan]; [reflexivity|].
  destruct (N.eqb_spec b 34); [congruence|]. destruct (N.eqb_spec b 92); [congruence|].
  now rewrite IH.
Qed.

Lemma parse_value_app f v r : value_ok f v -> ends r ->
  parse_value (write_value f v ++ r) = Some (v, r).
Proof.
  destruct f; cbn [value_ok write_value].
  - intros (Hne & Hq & Hv) Hr. unfold parse_value.
    destruct v as [|b v]; [congruence|]. cbn [hd] in Hq.
    assert (parse_quoted ((b :: v) ++ r) = None) as ->.
    { cbn [app parse_quoted]. destruct (N.eqb_spec b 34); [congruence|reflexivity]. }
    rewrite (raw_span_app _ _ Hv Hr). reflexivity.
  - intros (Hne & Hv) Hr. unfold parse_value.
    assert (parse_quoted (([34] ++ v ++ [34]) ++ r) = Some (v, r)) as ->; [|reflexivity].
    cbn [app parse_quoted]. rewrite N.eqb_refl, <- app_assoc. cbn [app].
    rewrite (esc_scan_app _ _ Hv). destruct v as [|b v]; [congruence|].
    rewrite N.eqb_refl. reflexivity.
Qed.

Lemma skip_multispace_app s r : Forall (fun b => b = 32 \/ b = 9) s ->
  match r with [] => True | b :: _ => is_multispace b = false end -> skip_multispace (s ++ r) = r.
Proof.
  induction 1 as [|b s Hb Hs IH]; intros Hr; cbn [app skip_multispace].
  - destruct r as [|b r]; [reflexivity|]. cbn [skip_multispace]. now rewrite Hr.
  - destruct Hb as [-> | ->]; cbn; auto.
Qed.

Lemma key_not_space k r : key_ok k ->
  match k ++ r with [] => True | b :: _ => is_multispace b = false end.
Proof.
  intros (b & t & -> & Hb & Ht). cbn [app]. unfold is_multispace. cbn [existsb].
  unfold letter in Hb. lia.
Qed.

Lemma args_end args : Forall arg_ok args -> ends (flat_map write_arg args).
Proof.
  intros [|a l Ha _]; cbn [flat_map]; [exact I|].
  destruct Ha as (Hne & Hs & _). unfold write_arg. destruct (a_sep a) as [|b s]; [congruence|].
  cbn [app ends]. apply Forall_inv in Hs. exact Hs.
Qed.

Lemma parse_key_value_app k f v r : key_ok k -> value_ok f v -> ends r ->
  parse_key_value (k ++ [61] ++ write_value f v ++ r) = Some (k, v, r).
Proof.
  intros Hk Hv Hr. unfold parse_key_value.
  rewrite (parse_key_app k ([61] ++ write_value f v ++ r) Hk) by reflexivity.
  cbn [app]. rewrite N.eqb_refl, (parse_value_app f v r Hv Hr). reflexivity.
Qed.

(** [parse_kvs] after the first separator byte may have been removed. *)
Lemma parse_kvs_args args : Forall arg_ok args -> forall fuel, (length args <= fuel)%nat ->
  parse_kvs fuel (flat_map write_arg args) = pairs args.
Proof.
  induction 1 as [|a args Ha Hargs IH]; intros fuel Hf.
  - destruct fuel; reflexivity.
  - cbn [length] in Hf. destruct fuel as [|fuel]; [lia|].
    cbn [flat_map parse_kvs pairs map]. unfold write_arg at 1.
    destruct Ha as (Hne & Hs & Hk & Hv).
    rewrite <- !app_assoc. rewrite skip_multispace_app; [|exact Hs|].
    2: { apply (key_not_space (a_key a)). exact Hk. }
    rewrite parse_key_value_app; auto using args_end. f_equal. apply IH. lia.
Qed.

Lemma skip_space_kvs args fuel : Forall arg_ok args -> (length args <= fuel)%nat ->
  parse_kvs fuel (skip_space (flat_map write_arg args)) = pairs args.
Proof.
  intros H Hf. destruct H as [|a args Ha Hargs].
  - destruct fuel; reflexivity.
  - destruct Ha as (Hne & Hs & Hk & Hv). destruct a as [sep k f v]. cbn [a_sep a_key a_form a_value] in *.
    destruct sep as [|b s]; [congruence|].
    destruct (N.eqb_spec b 32) as [->|Hb].
    + cbn [flat_map]. unfold write_arg at 1. cbn [a_sep a_key a_form a_value app skip_space].
      rewrite N.eqb_refl. cbn [length] in Hf. destruct fuel as [|fuel]; [lia|].
      cbn [parse_kvs]. rewrite <- !app_assoc.
      rewrite skip_multispace_app; [|now inversion Hs|].
      2: { apply (key_not_space k). exact Hk. }
      change (61 :: write_value f v) with ([61] ++ write_value f v). rewrite <- !app_assoc.
      rewrite parse_key_value_app; auto using args_end. cbn [pairs map a_key a_value]. f_equal.
      apply parse_kvs_args; [assumption|lia].
    + assert (skip_space (flat_map write_arg (mkArg (b :: s) k f v :: args)) =
              flat_map write_arg (mkArg (b :: s) k f v :: args)) as ->.
      { cbn [flat_map]. unfold write_arg at 1. cbn [a_sep app skip_space].
        destruct (N.eqb_spec b 32); [congruence|reflexivity]. }
      apply parse_kvs_args; [|exact Hf]. constructor; [|assumption].
      repeat apply conj; auto.
Qed.

Lemma write_arg_nonempty a : arg_ok a -> (1 <= length (write_arg a))%nat.
Proof.
  intros (Hne & _). unfold write_arg. rewrite app_length. destruct (a_sep a); [congruence|].
  cbn [length]. lia.
Qed.
Lemma args_length args : Forall arg_ok args -> (length args <= length (flat_map write_arg args))%nat.
Proof.
  induction 1 as [|a l Ha Hl IH]; [reflexivity|]. cbn [flat_map length]. rewrite app_length.
  pose proof (write_arg_nonempty a Ha). lia.
Qed.

Lemma last_value_given k args : PrimProofs.last_value k (pairs args) = last_given k args.
Proof.
  unfold PrimProofs.last_value, last_given. generalize (pairs args). clear args. intros l.
  rewrite <- fold_left_rev_right. induction (rev l) as [|kv r IH]; [reflexivity|].
  cbn [fold_right find]. rewrite IH. now destruct (beq k (fst kv)).
Qed.

Lemma holds_args args : holds (into_hashmap (pairs args)) args.
Proof. intros k. rewrite into_hashmap_get. apply last_value_given. Qed.

Section WithExt.
Variable e : ext.

Lemma p_tag_none t i : starts_with t i = false -> p_tag t i = None.
Proof. intros H. unfold p_tag. now rewrite H. Qed.

(** The command and subcommand of a written line are found. *)
Definition command_name (c : string) : Prop :=
  In c ["HELLO"; "SESSION"; "STREAM"; "NAMING"; "DEST"]%string.
Definition subcommand_name (c : string) : Prop :=
  In c ["VERSION"; "CREATE"; "CONNECT"; "ACCEPT"; "FORWARD"; "LOOKUP"; "GENERATE"]%string.

Lemma tags_command c r : command_name c -> p_tags commands (lit c ++ r) = Some (lit c, r).
Proof.
  intros H. unfold command_name in H. cbn [In] in H.
  repeat destruct H as [<-|H]; try contradiction; reflexivity.
Qed.
Lemma tags_subcommand c r : subcommand_name c -> p_tags subcommands (lit c ++ r) = Some (lit c, r).
Proof.
  intros H. unfold subcommand_name in H. cbn [In] in H.
  repeat destruct H as [<-|H]; try contradiction; reflexivity.
Qed.

Lemma sam_parse_line cmd sub args :
  command_name cmd -> subcommand_name sub -> Forall arg_ok args ->
  sam_parse e (line cmd sub args) = interpret e (lit cmd) (Some (lit sub)) (into_hashmap (pairs args)).
Proof.
  intros Hc Hs Ha. unfold sam_parse, line.
  rewrite (tags_command cmd _ Hc). cbn [app skip_space]. rewrite N.eqb_refl.
  rewrite (tags_subcommand sub _ Hs).
  rewrite skip_space_kvs; [reflexivity|assumption|].
  pose proof (args_length args Ha).
  assert (length (flat_map write_arg args) <= S (length (skip_space (flat_map write_arg args))))%nat;
    [|lia].
  destruct (flat_map write_arg args) as [|b t]; cbn [skip_space length]; [lia|].
  destruct (b =? 32); cbn [length]; lia.
Qed.

Lemma mget_mremove k k' m : mget k (mremove k' m) = if beq k k' then None else mget k m.
Proof.
  induction m as [|[a v] m IH]; cbn [mremove filter fst mget]; [now destruct (beq k k')|].
  destruct (beq k' a) eqn:E; cbn [negb].
  - fold (mremove k' m). rewrite IH. apply beq_eq in E. subst a.
    destruct (beq k k'); reflexivity.
  - cbn [mget]. fold (mremove k' m). rewrite IH. destruct (beq k a) eqn:E2; [|reflexivity].
    apply beq_eq in E2. subst a. destruct (beq k k') eqn:E3; [|reflexivity].
    apply beq_eq in E3. subst k'. rewrite beq_refl in E. discriminate.
Qed.
End WithExt.

Section Commands.
Variable e : ext.

Ltac start H :=
  rewrite sam_parse_line; [|cbn; tauto|cbn; tauto|exact H].

Lemma given_mget k args : mget (lit k) (into_hashmap (pairs args)) = given k args.
Proof. apply holds_args. Qed.

Lemma parse_hello args : Forall arg_ok args ->
  sam_parse e (line "HELLO" "VERSION" args) =
  Some (CHello (match given "MIN" args with Some v => version_of v | None => None end)
               (match given "MAX" args with Some v => version_of v | None => None end)).
Proof. intros H. start H. rewrite <- !given_mget. reflexivity. Qed.

Lemma parse_accept args : Forall arg_ok args ->
  match given "ID" args with
  | None => sam_parse e (line "STREAM" "ACCEPT" args) = None
  | Some id => exists m, sam_parse e (line "STREAM" "ACCEPT" args) = Some (CAccept id m) /\ holds m args
  end.
Proof.
  intros H. start H. pose proof (holds_args args) as Hm. rewrite <- given_mget.
  set (m := into_hashmap (pairs args)) in *. 
  assert (interpret e (lit "STREAM") (Some (lit "ACCEPT")) m =
          match mget (lit "ID") m with Some id => Some (CAccept id m) | None => None end) as ->
    by reflexivity.
  destruct (mget (lit "ID") m); [|reflexivity]. exists m. now split.
Qed.

Lemma parse_forward args : Forall arg_ok args ->
  match given "ID" args, given "PORT" args with
  | Some id, Some p =>
      match parse_dec 65535 p with
      | Some port =>
          exists m, sam_parse e (line "STREAM" "FORWARD" args) = Some (CForward id port m) /\ holds m args
      | None => sam_parse e (line "STREAM" "FORWARD" args) = None
      end
  | _, _ => sam_parse e (line "STREAM" "FORWARD" args) = None
  end.
Proof.
  intros H. start H. pose proof (holds_args args) as Hm. rewrite <- !given_mget.
  set (m := into_hashmap (pairs args)) in *. 
  assert (interpret e (lit "STREAM") (Some (lit "FORWARD")) m =
          match mget (lit "ID") m, mget (lit "PORT") m with
          | Some id, Some p => match parse_dec 65535 p with
                               | Some port => Some (CForward id port m) | None => None end
          | _, _ => None end) as -> by reflexivity.
  destruct (mget (lit "ID") m) as [id|], (mget (lit "PORT") m) as [pv|]; try reflexivity.
  destruct (parse_dec 65535 pv); [|reflexivity]. exists m. now split.
Qed.

Lemma parse_lookup args : Forall arg_ok args ->
  sam_parse e (line "NAMING" "LOOKUP" args) = option_map CLookup (given "NAME" args).
Proof. intros H. start H. rewrite <- given_mget. reflexivity. Qed.

Lemma parse_generate args : Forall arg_ok args ->
  sam_parse e (line "DEST" "GENERATE" args) =
  if match given "SIGNATURE_TYPE" args with Some t => beq t (lit "7") | None => false end
  then Some CGenerate else None.
Proof.
  intros H. start H. rewrite <- given_mget. set (m := into_hashmap (pairs args)).
  assert (interpret e (lit "DEST") (Some (lit "GENERATE")) m =
    match mget (lit "SIGNATURE_TYPE") m with
    | Some t => if beq t (lit "7") then Some CGenerate else None
    | None => None
    end) as -> by reflexivity.
  destruct (mget (lit "SIGNATURE_TYPE") m); reflexivity.
Qed.

Lemma parse_connect args : Forall arg_ok args ->
  match given "ID" args, given "DESTINATION" args with
  | Some id, Some dv =>
      match connect_host e dv with
      | Some h =>
          exists m, sam_parse e (line "STREAM" "CONNECT" args) = Some (CConnect id h m) /\ holds m args
      | None => sam_parse e (line "STREAM" "CONNECT" args) = None
      end
  | _, _ => sam_parse e (line "STREAM" "CONNECT" args) = None
  end.
Proof.
  intros H. start H. pose proof (holds_args args) as Hm. rewrite <- !given_mget.
  set (m := into_hashmap (pairs args)) in *. 
  assert (interpret e (lit "STREAM") (Some (lit "CONNECT")) m =
          match mget (lit "ID") m, mget (lit "DESTINATION") m with
          | Some id, Some p => match connect_host e p with
                               | Some h => Some (CConnect id h m) | None => None end
          | _, _ => None end) as -> by reflexivity.
  destruct (mget (lit "ID") m) as [id|], (mget (lit "DESTINATION") m) as [dv|]; try reflexivity.
  destruct (connect_host e dv); [|reflexivity]. exists m. now split.
Qed.

Lemma find_sub_none p i : (forall a b, i <> a ++ p ++ b) -> find_sub p i = None.
Proof.
  induction i as [|x i IH]; intros H; cbn [find_sub].
  - destruct (starts_with p []) eqn:E; [|reflexivity].
    destruct p; [|discriminate]. now specialize (H [] []).
  - destruct (starts_with p (x :: i)) eqn:E.
    + exfalso. assert (exists b, x :: i = p ++ b) as [b Hb].
      { clear -E. revert E. generalize (x :: i) as l. induction p as [|y p IHp]; intros l E; [now exists l|].
        destruct l as [|z l]; cbn [starts_with] in E; [discriminate|].
        apply andb_prop in E as [E1 E2]. apply N.eqb_eq in E1. subst z.
        destruct (IHp l E2) as [b ->]. now exists b. }
      now apply (H [] b).
    + rewrite IH; [reflexivity|]. intros a b ->. now apply (H (x :: a) b).
Qed.

Lemma find_sub_first p i r : p <> [] -> ~ In (hd 0 p) i -> find_sub p (i ++ p ++ r) = Some (length i).
Proof.
  intros Hp. induction i as [|x i IH]; intros H; cbn [app].
  - pose proof (starts_with_app p r) as Hs.
    destruct (p ++ r) eqn:E; cbn [find_sub]; [now rewrite Hs|]. now rewrite Hs.
  - cbn [find_sub]. assert (starts_with p (x :: i ++ p ++ r) = false) as ->.
    { destruct p as [|y p]; [congruence|]. cbn [starts_with hd] in *.
      destruct (N.eqb_spec y x); [|reflexivity]. subst. exfalso. apply H. now left. }
    rewrite IH; [reflexivity|]. intros Hin. apply H. now right.
Qed.

Lemma no_dot_no_sub i : ~ In 46 i -> forall a b, i <> a ++ lit ".b32.i2p" ++ b.
Proof.
  intros H a b ->. apply H. apply in_or_app. right. cbn. auto.
Qed.

Lemma ends_with_spec p i : ends_with p i = true <-> exists a, i = a ++ p.
Proof.
  unfold ends_with. split.
  - destruct (length p <=? length i)%nat eqn:E; [|discriminate]. intros H. apply beq_eq in H.
    exists (firstn (length i - length p) i).
    transitivity (firstn (length i - length p) i ++ skipn (length i - length p) i);
      [symmetry; apply firstn_skipn|]. now rewrite H.
  - intros [a ->]. rewrite app_length.
    destruct (length p <=? length a + length p)%nat eqn:E; [|apply Nat.leb_gt in E; lia].
    replace (length a + length p - length p)%nat with (length a) by lia.
    rewrite skipn_exact. apply beq_refl.
Qed.

Lemma connect_dest d : dest_ok e d -> bytes_ok (ser_dest d) ->
  connect_host e (base64_encode (ser_dest d)) = Some (HkDestination d).
Proof.
  intros Hd Hb. unfold connect_host.
  assert (~ In 46 (base64_encode (ser_dest d))) as Hdot by (apply base64_no_char; auto).
  rewrite (find_sub_none _ _ (no_dot_no_sub _ Hdot)).
  assert (ends_with (lit ".i2p") (base64_encode (ser_dest d)) = false) as ->.
  { destruct (ends_with (lit ".i2p") (base64_encode (ser_dest d))) eqn:E; [|reflexivity].
    apply ends_with_spec in E as [a Ha]. exfalso. apply Hdot. rewrite Ha. apply in_or_app. right.
    cbn. auto. }
  rewrite (base64_round _ Hb). pose proof (Hd []) as Hd'. rewrite app_nil_r in Hd'. now rewrite Hd'.
Qed.

Definition schemes : list (list N) := [[]; lit "http://"; lit "https://"].

Lemma base32_chars l : bytes_ok l -> Forall (fun c => In c alpha32) (base32_encode l).
Proof.
  intros Hl. unfold base32_encode. rewrite Forall_forall. intros c Hc.
  apply in_map_iff in Hc as (v & <- & Hv).
  destruct (radix_round 5 l ltac:(lia) Hl) as [_ B]. rewrite Forall_forall in B. specialize (B v Hv).
  unfold sym. apply nth_In. change (2 ^ N.of_nat 5) with 32 in B.
  change (length alpha32) with 32%nat. lia.
Qed.

Lemma alpha32_nice c : In c alpha32 -> c <> 46 /\ c <> 58.
Proof.
  intros H. assert (forallb (fun c => negb (c =? 46) && negb (c =? 58)) alpha32 = true) as F
    by reflexivity.
  rewrite forallb_forall in F. specialize (F c H). lia.
Qed.

Lemma scheme_len_app s r : In s schemes -> ~ In 58 r \/ s <> [] -> scheme_len (s ++ r) = length s.
Proof.
  intros [<-|[<-|[<-|[]]]] H.
  - destruct H as [H|H]; [|congruence]. cbn [app]. unfold scheme_len.
    destruct (starts_with (lit "http://") r) eqn:E1.
    { exfalso. apply H. clear H.
      do 7 (destruct r as [|? r]; [cbn in E1; rewrite ?andb_false_r in E1; discriminate E1|]).
      cbn [lit starts_with] in E1. repeat (apply andb_prop in E1 as [? E1]).
      match goal with H4 : (N_of_ascii ":" =? ?y) = true |- _ => apply N.eqb_eq in H4; change (N_of_ascii ":") with 58 in H4 end.
      subst. cbn. auto 8. }
    destruct (starts_with (lit "https://") r) eqn:E2; [|reflexivity].
    exfalso. apply H. clear H.
    do 8 (destruct r as [|? r]; [cbn in E2; rewrite ?andb_false_r in E2; discriminate E2|]).
    cbn [lit starts_with] in E2. repeat (apply andb_prop in E2 as [? E2]).
    match goal with H4 : (N_of_ascii ":" =? ?y) = true |- _ => apply N.eqb_eq in H4; change (N_of_ascii ":") with 58 in H4 end.
    subst. cbn. auto 10.
  - unfold scheme_len. now rewrite starts_with_app.
  - unfold scheme_len. rewrite starts_with_app. reflexivity.
Qed.

Lemma connect_b32 s h t : In s schemes -> bytes_ok h ->
  connect_host e (s ++ base32_encode h ++ lit ".b32.i2p" ++ t) = Some (HkB32 h).
Proof.
  intros Hs Hh. unfold connect_host.
  pose proof (base32_chars h Hh) as Hc. rewrite Forall_forall in Hc.
  assert (~ In 46 (s ++ base32_encode h)) as Hdot.
  { intros Hin. apply in_app_or in Hin as [Hin|Hin].
    - cbn [schemes In] in Hs. destruct Hs as [<-|[<-|[<-|[]]]]; cbn in Hin; intuition discriminate.
    - apply Hc in Hin. apply alpha32_nice in Hin. tauto. }
  rewrite app_assoc, (find_sub_first (lit ".b32.i2p") (s ++ base32_encode h) t); [|discriminate|exact Hdot].
  rewrite <- app_assoc.
  assert (scheme_len (s ++ base32_encode h ++ lit ".b32.i2p" ++ t) = length s) as ->.
  { cbn [schemes In] in Hs. destruct Hs as [<-|[<-|[<-|[]]]].
    2, 3: apply scheme_len_app; [cbn; auto|right; discriminate].
    cbn [app length]. unfold scheme_len.
    assert (forall p, In 58 p -> ~ In 46 p -> starts_with p (base32_encode h ++ lit ".b32.i2p" ++ t) = false) as G.
    { intros p Hp Hp2. destruct (starts_with p (base32_encode h ++ lit ".b32.i2p" ++ t)) eqn:E; [|reflexivity].
      exfalso. revert E Hc. cbn [app] in Hdot. clear -Hp Hp2. generalize (base32_encode h). intros l. revert l.
      induction p as [|x p IH]; intros l E Hc; [contradiction|].
      destruct l as [|y l].
      - cbn [app lit starts_with] in E. apply andb_prop in E as [E _]. apply N.eqb_eq in E.
        change (N_of_ascii ".") with 46 in E. apply Hp2. now left.
      - cbn [app starts_with] in E. apply andb_prop in E as [E1 E2]. apply N.eqb_eq in E1. subst y.
        destruct Hp as [->|Hp].
        + specialize (Hc 58 (or_introl eq_refl)). apply alpha32_nice in Hc. tauto.
        + apply (IH Hp) with l; auto.
          * intros Hin. apply Hp2. now right.
          * intros z Hz. apply Hc. now right. }
    rewrite !G; [reflexivity| | | |]; cbn; intuition discriminate. }
  unfold slice. rewrite app_length. replace (length s + length (base32_encode h) - length s)%nat
    with (length (base32_encode h)) by lia.
  rewrite skipn_exact, firstn_exact, (base32_round h Hh). reflexivity.
Qed.

Lemma connect_name s n : In s schemes -> ~ In 58 n ->
  (forall a b, s ++ n <> a ++ lit ".b32.i2p" ++ b) -> (exists a, n = a ++ lit ".i2p") ->
  connect_host e (s ++ n) = Some (HkHost n).
Proof.
  intros Hs Hn Hb [a Ha]. unfold connect_host. rewrite (find_sub_none _ _ Hb).
  assert (ends_with (lit ".i2p") (s ++ n) = true) as ->.
  { apply ends_with_spec. exists (s ++ a). now rewrite Ha, app_assoc. }
  rewrite scheme_len_app; [|exact Hs|now left]. now rewrite skipn_exact.
Qed.

(** ** SESSION CREATE *)
Lemma create_dest_transient : create_dest e (lit "TRANSIENT") = Some Transient.
Proof. reflexivity. Qed.

Lemma create_dest_keys d pk sk x : dest_ok e d -> bytes_ok (ser_dest d ++ pk ++ sk ++ x) ->
  length pk = 32%nat -> length sk = 32%nat ->
  base64_encode (ser_dest d ++ pk ++ sk ++ x) <> lit "TRANSIENT" ->
  create_dest e (base64_encode (ser_dest d ++ pk ++ sk ++ x)) = Some (Persistent d pk sk).
Proof.
  intros Hd Hb Hp Hs Hn. unfold create_dest.
  destruct (beq (base64_encode (ser_dest d ++ pk ++ sk ++ x)) (lit "TRANSIENT")) eqn:E.
  { apply beq_eq in E. contradiction. }
  rewrite (base64_round _ Hb).
  erewrite bind_step; [|apply Hd]. cbv beta. erewrite bind_step; [|apply take_app; exact Hp]. cbv beta.
  erewrite bind_step; [|apply take_app; exact Hs]. reflexivity.
Qed.

(** What remains in the options of a session. *)
Definition leftover (m : list (list N * list N)) (args : list arg) : Prop :=
  (forall k, k <> lit "ID" -> k <> lit "STYLE" -> k <> lit "DESTINATION" -> k <> lit "HOST" ->
     mget k m = last_given k args) /\
  mget (lit "ID") m = None /\ mget (lit "STYLE") m = None /\ mget (lit "DESTINATION") m = None.

Lemma beq_neq a b : a <> b -> beq a b = false.
Proof. intros H. destruct (beq a b) eqn:E; [|reflexivity]. apply beq_eq in E. contradiction. Qed.

Lemma parse_create args id style dv ctx : Forall arg_ok args ->
  given "ID" args = Some id -> given "STYLE" args = Some style ->
  given "DESTINATION" args = Some dv -> create_dest e dv = Some ctx ->
  (style = lit "STREAM" ->
     exists m, sam_parse e (line "SESSION" "CREATE" args) = Some (CCreate id SkStream ctx m) /\
       leftover m args /\ mget (lit "HOST") m = given "HOST" args) /\
  (style = lit "RAW" \/ style = lit "DATAGRAM" ->
     match given "PORT" args with
     | None => sam_parse e (line "SESSION" "CREATE" args) = None
     | Some _ =>
         exists m, sam_parse e (line "SESSION" "CREATE" args) =
             Some (CCreate id (if beq style (lit "RAW") then SkAnonymous else SkDatagram) ctx m) /\
           leftover m args /\
           mget (lit "HOST") m =
             Some (match given "HOST" args with Some h => h | None => lit "127.0.0.1" end)
     end) /\
  (style <> lit "STREAM" -> style <> lit "RAW" -> style <> lit "DATAGRAM" ->
     sam_parse e (line "SESSION" "CREATE" args) = None).
Proof.
  intros H. start H. pose proof (holds_args args) as Hm. rewrite <- !given_mget.
  unfold leftover.
  set (m := into_hashmap (pairs args)) in *. intros Hid Hst Hdv Hctx.
  unfold interpret.
  change (beq (lit "SESSION") (lit "HELLO")) with false.
  change (beq (lit "SESSION") (lit "SESSION")) with true.
  change (beq (lit "CREATE") (lit "CREATE")) with true. cbn [andb].
  rewrite Hid. rewrite !mget_mremove.
  change (beq (lit "STYLE") (lit "ID")) with false. cbv iota. rewrite Hst.
  change (beq (lit "PORT") (lit "STYLE")) with false.
  change (beq (lit "PORT") (lit "ID")) with false.
  change (beq (lit "HOST") (lit "STYLE")) with false.
  change (beq (lit "HOST") (lit "ID")) with false. cbv iota.
  split; [|split].
  - intros ->. change (beq (lit "STREAM") (lit "STREAM")) with true. cbv iota.
    rewrite !mget_mremove. change (beq (lit "DESTINATION") (lit "STYLE")) with false.
    change (beq (lit "DESTINATION") (lit "ID")) with false. cbv iota. rewrite Hdv, Hctx.
    eexists. split; [reflexivity|].
    split; [split; [|split; [|split]]|]; rewrite ?mget_mremove; try reflexivity.
    intros k K1 K2 K3 K4. rewrite !mget_mremove.
    rewrite (beq_neq k (lit "DESTINATION")), (beq_neq k (lit "STYLE")), (beq_neq k (lit "ID")) by assumption.
    apply Hm.
  - intros Hs2. destruct (mget (lit "PORT") m) as [p|].
    2: { cbn [option_map]. destruct Hs2 as [-> | ->]; reflexivity. }
    set (m3 := match mget (lit "HOST") m with
               | None => minsert (lit "HOST") (lit "127.0.0.1") (mremove (lit "STYLE") (mremove (lit "ID") m))
               | Some _ => mremove (lit "STYLE") (mremove (lit "ID") m) end).
    assert (forall k, k <> lit "HOST" -> mget k m3 =
              if beq k (lit "STYLE") then None else if beq k (lit "ID") then None else mget k m) as H3.
    { intros k Hk. unfold m3. destruct (mget (lit "HOST") m); [|rewrite mget_minsert_other by assumption];
        now rewrite !mget_mremove. }
    assert (mget (lit "HOST") m3 =
              Some (match mget (lit "HOST") m with Some h => h | None => lit "127.0.0.1" end)) as H4.
    { unfold m3. destruct (mget (lit "HOST") m) as [h|] eqn:Eh; [|apply mget_minsert_same].
      rewrite !mget_mremove. change (beq (lit "HOST") (lit "STYLE")) with false.
      change (beq (lit "HOST") (lit "ID")) with false. exact Eh. }
    assert ((if beq style (lit "STREAM") then Some (SkStream, mremove (lit "STYLE") (mremove (lit "ID") m))
             else if beq style (lit "RAW") then option_map (pair SkAnonymous) (Some m3)
             else if beq style (lit "DATAGRAM") then option_map (pair SkDatagram) (Some m3) else None) =
            Some (if beq style (lit "RAW") then SkAnonymous else SkDatagram, m3)) as Hst2
      by (destruct Hs2 as [-> | ->]; reflexivity).
    rewrite Hst2. cbv iota beta.
    rewrite H3 by discriminate. change (beq (lit "DESTINATION") (lit "STYLE")) with false.
    change (beq (lit "DESTINATION") (lit "ID")) with false. cbv iota. rewrite Hdv, Hctx.
    eexists. split; [reflexivity|].
    split; [split; [|split; [|split]]|]; rewrite ?mget_mremove.
    + intros k K1 K2 K3 K4. rewrite !mget_mremove, H3 by assumption.
      rewrite (beq_neq k (lit "DESTINATION")), (beq_neq k (lit "STYLE")), (beq_neq k (lit "ID")) by assumption.
      apply Hm.
    + change (beq (lit "ID") (lit "DESTINATION")) with false. cbv iota. rewrite H3 by discriminate. reflexivity.
    + change (beq (lit "STYLE") (lit "DESTINATION")) with false. cbv iota. rewrite H3 by discriminate. reflexivity.
    + reflexivity.
    + change (beq (lit "HOST") (lit "DESTINATION")) with false. cbv iota. exact H4.
  - intros N1 N2 N3. rewrite (beq_neq _ _ N1), (beq_neq _ _ N2), (beq_neq _ _ N3). reflexivity.
Qed.

Lemma parse_create_missing args : Forall arg_ok args ->
  given "ID" args = None \/ given "STYLE" args = None \/ given "DESTINATION" args = None ->
  sam_parse e (line "SESSION" "CREATE" args) = None.
Proof.
  intros H. start H. rewrite <- !given_mget. set (m := into_hashmap (pairs args)).
  unfold interpret.
  change (beq (lit "SESSION") (lit "HELLO")) with false.
  change (beq (lit "SESSION") (lit "SESSION")) with true.
  change (beq (lit "CREATE") (lit "CREATE")) with true. cbn [andb].
  intros Hn. destruct (mget (lit "ID") m) as [id|] eqn:E1; [|reflexivity].
  rewrite !mget_mremove. change (beq (lit "STYLE") (lit "ID")) with false. cbv iota.
  destruct (mget (lit "STYLE") m) as [style|] eqn:E2; [|reflexivity].
  destruct Hn as [Hn|[Hn|Hn]]; try discriminate.
  change (beq (lit "HOST") (lit "STYLE")) with false.
  change (beq (lit "HOST") (lit "ID")) with false. cbv iota.
  set (fw := match (if beq (lit "PORT") (lit "STYLE") then None
                    else if beq (lit "PORT") (lit "ID") then None else mget (lit "PORT") m) with
             | Some _ => _ | None => None end).
  assert (forall x, fw = Some x -> mget (lit "DESTINATION") x = None) as Hfw.
  { unfold fw. intros x Hx. destruct (if beq (lit "PORT") (lit "STYLE") then None else _); [|discriminate].
    apply (f_equal (fun o => match o with Some y => y | None => x end)) in Hx. cbv beta iota in Hx.
    rewrite <- Hx. clear fw Hx. destruct (mget (lit "HOST") m).
    - rewrite !mget_mremove. exact Hn.
    - rewrite mget_minsert_other by discriminate. rewrite !mget_mremove. exact Hn. }
  destruct (beq style (lit "STREAM")).
  { rewrite !mget_mremove. change (beq (lit "DESTINATION") (lit "STYLE")) with false.
    change (beq (lit "DESTINATION") (lit "ID")) with false. cbv iota. now rewrite Hn. }
  destruct fw as [x|].
  - specialize (Hfw x eq_refl). cbn [option_map].
    destruct (beq style (lit "RAW")); [now rewrite Hfw|].
    destruct (beq style (lit "DATAGRAM")); [now rewrite Hfw|reflexivity].
  - cbn [option_map]. destruct (beq style (lit "RAW")), (beq style (lit "DATAGRAM")); reflexivity.
Qed.
End Commands.

(** ** Reading *)
Lemma position_none c l : ~ In c l -> position c l = None.
Proof.
  induction l as [|x l IH]; intros H; [reflexivity|]. cbn [position].
  destruct (N.eqb_spec x c); [subst; exfalso; apply H; now left|].
  rewrite IH; [reflexivity|]. intros Hin. apply H. now right.
Qed.
Lemma position_here c a b : ~ In c a -> position c (a ++ c :: b) = Some (length a).
Proof.
  induction a as [|x a IH]; intros H; cbn [app position length].
  - now rewrite N.eqb_refl.
  - destruct (N.eqb_spec x c); [subst; exfalso; apply H; now left|].
    rewrite IH; [reflexivity|]. intros Hin. apply H. now right.
Qed.

Lemma sam_buffer_N : N.of_nat sam_buffer = 4096.
Proof. reflexivity. Qed.
Global Opaque sam_buffer.

Section Reading.
Variable e : ext.

Definition bounded (r : sam_reader) : Prop :=
  length (sr_buf r) = sam_buffer /\ (sr_off r <= sam_buffer)%nat.

Lemma bounded_step r k chunk : bounded r -> sam_room r = Some k -> (length chunk <= k)%nat ->
  bounded (fst (sam_on_read e r chunk)).
Proof.
  unfold bounded. intros [Hb Ho] Hr Hk. unfold sam_room in Hr. destruct (sr_closed r); [discriminate|].
  assert (k = sam_buffer - sr_off r)%nat as -> by congruence. clear Hr. unfold sam_on_read.
  assert (length (put_at (sr_off r) chunk (sr_buf r)) = sam_buffer) as L.
  { rewrite put_at_length; lia. }
  destruct (position 10 _); [destruct (utf8_ok _)|]; cbn [fst sr_buf sr_off]; split; auto; lia.
Qed.

(** A whole line in one read. *)
Lemma whole_line r l : bounded r -> sr_off r = O -> sr_closed r = false -> line_ok l ->
  exists r', sam_on_read e r (with_newline l) = (r', deliver e l) /\
    bounded r' /\ sr_off r' = O /\ sr_closed r' = false.
Proof.
  intros B Ho Hc (Hl & Hu & Hn). unfold with_newline.
  assert (sam_room r = Some sam_buffer) as Hr by (unfold sam_room; rewrite Hc, Ho; now rewrite Nat.sub_0_r).
  assert (length (l ++ [10%N]) <= sam_buffer)%nat as Hlen.
  { rewrite app_length. cbn [length]. pose proof sam_buffer_N. lia. }
  pose proof (bounded_step _ _ _ B Hr Hlen) as B'. revert B'.
  unfold sam_on_read. rewrite Ho. unfold put_at. cbn [firstn app plus]. rewrite <- app_assoc.
  cbn [app]. rewrite (position_here 10 l _ Hl), firstn_exact, Hu. cbn [fst].
  intros B'. eexists. split; [reflexivity|]. auto.
Qed.

Lemma whole_lines ls : forall r, bounded r -> sr_off r = O -> sr_closed r = false ->
  Forall line_ok ls ->
  exists r', feed sam_room (sam_on_read e) r (map with_newline ls) = Some (r', flat_map (deliver e) ls).
Proof.
  induction ls as [|l ls IH]; intros r B Ho Hc HF; cbn [map feed flat_map]; [now exists r|].
  inversion HF as [|x y Hl Hls]. destruct (whole_line r l B Ho Hc Hl) as (r' & E & B' & Ho' & Hc').
  unfold sam_room at 1. rewrite Hc, Ho, Nat.sub_0_r.
  assert ((1 <=? length (with_newline l))%nat && (length (with_newline l) <=? sam_buffer)%nat = true) as ->.
  { unfold with_newline. rewrite app_length. cbn [length]. destruct Hl as (_ & _ & Hn).
    pose proof sam_buffer_N. lia. }
  rewrite E. cbn [fst snd]. destruct (IH r' B' Ho' Hc' Hls) as [r'' ->]. now exists r''.
Qed.

(** The first line, in pieces. *)
Definition fresh (r : sam_reader) (p : list N) : Prop :=
  sr_buf r = p ++ repeat 0 (sam_buffer - length p) /\ sr_off r = length p /\ sr_closed r = false.

Lemma first_line l : line_ok l -> forall cs p q, l = p ++ q ->
  concat cs = q ++ [10] -> Forall (fun c => c <> []) cs -> forall r, fresh r p ->
  exists r', feed sam_room (sam_on_read e) r cs = Some (r', deliver e l) /\
    bounded r' /\ sr_off r' = O /\ sr_closed r' = false.
Proof.
  intros (Hl & Hu & Hn). rewrite <- sam_buffer_N in Hn.
  induction cs as [|c cs IH]; intros p q El Ec HF r (Hbuf & Hoff & Hcl).
  { destruct q; discriminate. }
  inversion HF as [|x y Hc Hcs]. cbn [concat] in Ec.
  assert (length c + length (concat cs) = length q + 1)%nat as Len.
  { rewrite <- app_length, Ec, app_length. reflexivity. }
  assert (length l = length p + length q)%nat as Lenl by (rewrite El; apply app_length).
  cbn [feed]. unfold sam_room at 1. rewrite Hcl, Hoff.
  assert ((1 <=? length c)%nat && (length c <=? sam_buffer - length p)%nat = true) as ->.
  { destruct c; [congruence|]. cbn [length] in *. lia. }
  assert (put_at (sr_off r) c (sr_buf r) = (p ++ c) ++ repeat 0 (sam_buffer - length (p ++ c))) as Hput.
  { rewrite Hoff, Hbuf. unfold put_at. rewrite firstn_exact, <- app_assoc. f_equal. f_equal.
    rewrite (skipn_app (length p + length c)), skipn_all2 by lia. cbn [app].
    replace (length p + length c - length p)%nat with (length c) by lia.
    rewrite app_length. 
    replace (sam_buffer - length p)%nat with (length c + (sam_buffer - (length p + length c)))%nat.
    - rewrite repeat_app. rewrite <- (repeat_length 0 (length c)) at 1. apply skipn_exact.
    - destruct c; [congruence|]. cbn [length] in *. lia. }
  destruct cs as [|c2 cs'].
  - cbn [concat] in Ec. rewrite app_nil_r in Ec. subst c.
    rewrite app_assoc in Hput.
    assert (sam_on_read e r (q ++ [10]) =
      (mkSamReader (put_at (sr_off r) (q ++ [10]) (sr_buf r)) 0 (sr_closed r), deliver e l)) as E.
    { unfold sam_on_read. rewrite Hput, <- El, <- app_assoc. cbn [app].
      rewrite (position_here 10 l _ Hl), firstn_exact, Hu. reflexivity. }
    rewrite E. cbn [fst snd feed]. rewrite app_nil_r. eexists. split; [reflexivity|].
    cbn [sr_buf sr_off sr_closed]. split; [|auto]. split; cbn [sr_buf sr_off]; [|lia].
    rewrite put_at_length; rewrite ?Hbuf, ?Hoff, ?app_length, ?repeat_length; cbn [length]; lia.
  - assert (exists q', q = c ++ q' /\ concat (c2 :: cs') = q' ++ [10]) as (q' & Eq & Ec').
    { assert (0 < length (concat (c2 :: cs')))%nat as Hpos.
      { inversion Hcs. cbn [concat]. rewrite app_length. destruct c2; [congruence|]. cbn [length]. lia. }
      exists (skipn (length c) q).
      assert (firstn (length c) q = c) as Hfc.
      { assert (firstn (length c) (q ++ [10]) = c) as F by (rewrite <- Ec; apply firstn_exact).
        rewrite firstn_app in F. replace (length c - length q)%nat with O in F by lia.
        cbn [firstn] in F. now rewrite app_nil_r in F. }
      split.
      - rewrite <- Hfc at 1. symmetry. apply firstn_skipn.
      - assert (skipn (length c) (q ++ [10]) = concat (c2 :: cs')) as F by (rewrite <- Ec; apply skipn_exact).
        rewrite skipn_app in F. replace (length c - length q)%nat with O in F by lia.
        now rewrite <- F. }
    assert (~ In 10 (p ++ c)) as Hnin.
    { intros Hin. apply Hl. rewrite El, Eq, app_assoc. apply in_or_app. now left. }
    assert (sam_on_read e r c =
      (mkSamReader (put_at (sr_off r) c (sr_buf r)) (sr_off r + length c) (sr_closed r), [])) as E.
    { unfold sam_on_read. rewrite Hput, position_none; [reflexivity|].
      intros Hin. apply in_app_or in Hin as [Hin|Hin]; [contradiction|].
      apply repeat_spec in Hin. discriminate. }
    rewrite E. cbn [fst snd app].
    destruct (IH (p ++ c) q') with (r := mkSamReader (put_at (sr_off r) c (sr_buf r)) (sr_off r + length c) (sr_closed r))
      as (r' & Hr' & P).
    + now rewrite El, Eq, app_assoc.
    + exact Ec'.
    + exact Hcs.
    + unfold fresh. cbn [sr_buf sr_off sr_closed]. rewrite app_length, Hoff. rewrite app_length in Hput.
      rewrite Hoff in Hput. auto.
    + exists r'. rewrite Hr'. auto.
Qed.

Lemma commands_in_order l ls cs : Forall line_ok (l :: ls) -> concat cs = with_newline l ->
  Forall (fun c => c <> []) cs ->
  exists r, feed sam_room (sam_on_read e) sam_reader_new (cs ++ map with_newline ls) =
    Some (r, flat_map (deliver e) (l :: ls)).
Proof.
  intros HF Hc Hcs. inversion HF as [|x y Hl Hls].
  destruct (first_line l Hl cs [] l eq_refl Hc Hcs sam_reader_new) as (r & Hr & B & Ho & Hcl).
  { repeat split. }
  assert (forall a b r0 r1 o1 r2 o2, feed sam_room (sam_on_read e) r0 a = Some (r1, o1) ->
    feed sam_room (sam_on_read e) r1 b = Some (r2, o2) ->
    feed sam_room (sam_on_read e) r0 (a ++ b) = Some (r2, o1 ++ o2)) as Happ.
  { clear. induction a as [|c a IH]; intros b r0 r1 o1 r2 o2 H1 H2; cbn [feed app] in *.
    - now injection H1 as <- <-.
    - destruct (sam_room r0); [|discriminate]. destruct (_ && _); [|discriminate].
      destruct (feed sam_room (sam_on_read e) (fst (sam_on_read e r0 c)) a) as [[rx ox]|] eqn:E; [|discriminate].
      injection H1 as <- <-. rewrite (IH _ _ _ _ _ _ E H2). now rewrite app_assoc. }
  destruct (whole_lines ls r B Ho Hcl Hls) as [r' Hr'].
  exists r'. cbn [flat_map]. eapply Happ; eassumption.
Qed.
End Reading.

(** ** Handshake *)
Section Conn.
Variable gen : list N.

Lemma run_ready v k evs : conn_run gen (ConnReady v k) evs = (ConnReady v k, []).
Proof. induction evs; [reflexivity|]. cbn [conn_run conn_step]. now rewrite IHevs. Qed.
Lemma run_failed evs : conn_run gen ConnFailed evs = (ConnFailed, []).
Proof. induction evs; [reflexivity|]. cbn [conn_run conn_step]. now rewrite IHevs. Qed.

Lemma run_shaken v evs v' k out : conn_run gen (Handshaked v) evs = (ConnReady v' k, out) ->
  v' = v /\ exists us c later, evs = map EvCommand us ++ EvCommand c :: later /\
    Forall (fun u => utility_reply gen u <> None) us /\ asks c = Some k /\
    map Some out = map (utility_reply gen) us.
Proof.
  revert out. induction evs as [|ev evs IH]; intros out H; [discriminate|].
  cbn [conn_run] in H.
  assert (forall rep c0, ev = EvCommand c0 -> utility_reply gen c0 = Some rep ->
    (let '(s'', out') := conn_run gen (Handshaked v) evs in (s'', [rep] ++ out')) = (ConnReady v' k, out) ->
    v' = v /\ exists us c later, ev :: evs = map EvCommand us ++ EvCommand c :: later /\
      Forall (fun u => utility_reply gen u <> None) us /\ asks c = Some k /\
      map Some out = map (utility_reply gen) us) as Util.
  { intros rep c0 -> Hrep H0. destruct (conn_run gen (Handshaked v) evs) as [s2 o2] eqn:E.
    apply pair_equal_spec in H0 as [-> <-].
    destruct (IH o2 eq_refl) as (-> & us & c & later & -> & F & A & M).
    split; [reflexivity|]. exists (c0 :: us), c, later. repeat apply conj; auto.
    - constructor; [congruence|exact F].
    - cbn [map app]. rewrite Hrep, M. reflexivity. }
  assert (forall k0 c0, ev = EvCommand c0 -> asks c0 = Some k0 ->
    (let '(s'', out') := conn_run gen (ConnReady v k0) evs in (s'', [] ++ out')) = (ConnReady v' k, out) ->
    v' = v /\ exists us c later, ev :: evs = map EvCommand us ++ EvCommand c :: later /\
      Forall (fun u => utility_reply gen u <> None) us /\ asks c = Some k /\
      map Some out = map (utility_reply gen) us) as Ask.
  { intros k0 c0 -> Hk H0. rewrite run_ready in H0. injection H0 as <- <- <-.
    split; [reflexivity|]. exists [], c0, evs. repeat apply conj; auto. }
  destruct ev as [c0| |]; [destruct c0|..]; cbn [conn_step] in H;
    try (rewrite run_failed in H; discriminate H);
    try (eapply Ask; [reflexivity|reflexivity|exact H]);
    (eapply Util; [reflexivity|reflexivity|exact H]).
Qed.

Lemma run_ask v us c later k : Forall (fun u => utility_reply gen u <> None) us -> asks c = Some k ->
  exists out, conn_run gen (Handshaked v) (map EvCommand us ++ EvCommand c :: later) = (ConnReady v k, out) /\
    map Some out = map (utility_reply gen) us.
Proof.
  intros HF Hk. induction us as [|u us IH]; cbn [map app conn_run].
  - exists []. destruct c; try discriminate; cbn [conn_step]; rewrite run_ready;
      injection Hk as <-; auto.
  - inversion HF as [|x y Hu Hus]. destruct (IH Hus) as (out & Hr & M).
    destruct u; cbn [utility_reply] in Hu; try congruence; cbn [conn_step]; rewrite Hr;
      eexists; (split; [reflexivity|]); cbn [map app utility_reply]; now rewrite M.
Qed.
End Conn.
