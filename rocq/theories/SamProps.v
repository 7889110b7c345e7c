(** Properties C10, C12, C49: the SAM control protocol. *)
From Coq Require Import Ascii String.
From Coq Require Import List NArith Bool Lia Arith ZifyBool ZifyNat ZifyN.
From Verif Require Import ListUtil Bytes PrimModel PrimSpec PrimProofs PrimProps EncModel EncProofs
  I2cpModel I2cpSpec I2cpProofs PacketProps SamModel SamSpec SamProofs.
Import ListNotations.
Local Open Scope list_scope.
Open Scope N_scope.

(** ** C49: a command is understood as the client wrote it.  Arguments may come in any order,
    separated by any amount of blanks, bare or quoted; the last value of a key counts. *)
Theorem C49_hello :
  forall e args, Forall arg_ok args ->
  sam_parse e (line "HELLO" "VERSION" args) =
  Some (CHello (match given "MIN" args with Some v => version_of v | None => None end)
               (match given "MAX" args with Some v => version_of v | None => None end)).
Proof. exact parse_hello. Qed.
Print Assumptions C49_hello.

Theorem C49_accept :
  forall e args, Forall arg_ok args ->
  match given "ID" args with
  | None => sam_parse e (line "STREAM" "ACCEPT" args) = None
  | Some id =>
      exists m, sam_parse e (line "STREAM" "ACCEPT" args) = Some (CAccept id m) /\ holds m args
  end.
Proof. exact parse_accept. Qed.
Print Assumptions C49_accept.

Lemma show_dec_parses n : n < 65536 -> parse_dec 65535 (show_dec n) = Some n.
Proof.
  intros H. assert (dec_digits 65535 0 (show_dec n) = Some n) as D.
  { apply show_dec_parse; [|lia|lia|reflexivity].
    eapply N.lt_trans; [exact H|]. vm_compute. reflexivity. }
  unfold parse_dec. destruct (show_dec n) as [|c t] eqn:E.
  - cbn in D. injection D as <-. discriminate.
  - destruct (N.eqb_spec c 43) as [->|Hc]; [cbn in D; discriminate|].
    destruct c as [|c]; [exact D|].
    repeat (destruct c as [c|c|]; try exact D; try congruence).
Qed.

Theorem C49_forward :
  forall e args id port, Forall arg_ok args ->
  given "ID" args = Some id -> given "PORT" args = Some (show_dec port) -> port < 65536 ->
  exists m, sam_parse e (line "STREAM" "FORWARD" args) = Some (CForward id port m) /\ holds m args.
Proof.
  intros e args id port H Hi Hp Hl. pose proof (parse_forward e args H) as P.
  rewrite Hi, Hp, (show_dec_parses port Hl) in P. exact P.
Qed.
Print Assumptions C49_forward.

Theorem C49_forward_incomplete :
  forall e args, Forall arg_ok args -> given "ID" args = None \/ given "PORT" args = None ->
  sam_parse e (line "STREAM" "FORWARD" args) = None.
Proof.
  intros e args H Hn. pose proof (parse_forward e args H) as P.
  destruct Hn as [-> | ->] in P; [exact P|]. destruct (given "ID" args); exact P.
Qed.
Print Assumptions C49_forward_incomplete.

(** The three ways to name the peer of a stream: its destination, the hash of its destination
    (possibly inside a URL), a host name (possibly after a scheme). *)
Inductive names (e : ext) : host_kind -> list N -> Prop :=
| names_dest d : dest_ok e d -> bytes_ok (ser_dest d) ->
    names e (HkDestination d) (base64_encode (ser_dest d))
| names_hash scheme h path : In scheme [[]; lit "http://"; lit "https://"] -> bytes_ok h ->
    names e (HkB32 h) (scheme ++ base32_encode h ++ lit ".b32.i2p" ++ path)
| names_host scheme n : In scheme [[]; lit "http://"; lit "https://"] ->
    ~ In 58 n -> (forall a b, scheme ++ n <> a ++ lit ".b32.i2p" ++ b) ->
    (exists a, n = a ++ lit ".i2p") -> names e (HkHost n) (scheme ++ n).

Theorem C49_connect :
  forall e args id h v, Forall arg_ok args ->
  given "ID" args = Some id -> given "DESTINATION" args = Some v -> names e h v ->
  exists m, sam_parse e (line "STREAM" "CONNECT" args) = Some (CConnect id h m) /\ holds m args.
Proof.
  intros e args id h v H Hi Hv Hn. pose proof (parse_connect e args H) as P.
  rewrite Hi, Hv in P.
  assert (connect_host e v = Some h) as E.
  { destruct Hn; [apply connect_dest|apply connect_b32|apply connect_name]; assumption. }
  rewrite E in P. exact P.
Qed.
Print Assumptions C49_connect.

Theorem C49_connect_incomplete :
  forall e args, Forall arg_ok args -> given "ID" args = None \/ given "DESTINATION" args = None ->
  sam_parse e (line "STREAM" "CONNECT" args) = None.
Proof.
  intros e args H Hn. pose proof (parse_connect e args H) as P.
  destruct Hn as [-> | ->] in P; [exact P|]. destruct (given "ID" args); exact P.
Qed.
Print Assumptions C49_connect_incomplete.

(** How the destination of a session is written: [TRANSIENT], or a destination followed by its
    two private keys. *)
Inductive written_dest (e : ext) : dest_context -> list N -> Prop :=
| wd_transient : written_dest e Transient (lit "TRANSIENT")
| wd_keys d pk sk extra : dest_ok e d -> bytes_ok (ser_dest d ++ pk ++ sk ++ extra) ->
    length pk = 32%nat -> length sk = 32%nat ->
    written_dest e (Persistent d pk sk) (base64_encode (ser_dest d ++ pk ++ sk ++ extra)).

Lemma keys_not_transient e d pk sk x : dest_ok e d -> bytes_ok (ser_dest d ++ pk ++ sk ++ x) ->
  base64_encode (ser_dest d ++ pk ++ sk ++ x) <> lit "TRANSIENT".
Proof.
  intros Hd Hb E. apply (f_equal base64_decode) in E. rewrite (base64_round _ Hb) in E.
  vm_compute in E. discriminate.
Qed.

Lemma written_create e ctx v : written_dest e ctx v -> create_dest e v = Some ctx.
Proof.
  destruct 1 as [|d pk sk x Hd Hb Hp Hs]; [reflexivity|].
  apply create_dest_keys; auto. now apply (keys_not_transient e).
Qed.

(** The options of the session are the remaining arguments. *)
Definition rest_of (m : list (list N * list N)) (args : list arg) : Prop :=
  forall k, ~ In k [lit "ID"; lit "STYLE"; lit "DESTINATION"; lit "HOST"] -> mget k m = last_given k args.

Theorem C49_create_stream :
  forall e args id ctx v, Forall arg_ok args ->
  given "ID" args = Some id -> given "STYLE" args = Some (lit "STREAM") ->
  given "DESTINATION" args = Some v -> written_dest e ctx v ->
  exists m, sam_parse e (line "SESSION" "CREATE" args) = Some (CCreate id SkStream ctx m) /\
    rest_of m args /\ mget (lit "HOST") m = given "HOST" args.
Proof.
  intros e args id ctx v H Hi Hs Hv Hw.
  destruct (parse_create e args id (lit "STREAM") v ctx H Hi Hs Hv (written_create _ _ _ Hw)) as [P _].
  destruct (P eq_refl) as (m & E & [L _] & Hh). exists m. repeat apply conj; auto.
  intros k Hk. cbn [In] in Hk. apply L; intros ->; tauto.
Qed.
Print Assumptions C49_create_stream.

(** A datagram session must say the port datagrams are forwarded to; the host defaults to the
    local one. *)
Theorem C49_create_datagram :
  forall e args id ctx v style, Forall arg_ok args ->
  given "ID" args = Some id -> given "STYLE" args = Some style ->
  style = lit "RAW" \/ style = lit "DATAGRAM" ->
  given "DESTINATION" args = Some v -> written_dest e ctx v ->
  match given "PORT" args with
  | None => sam_parse e (line "SESSION" "CREATE" args) = None
  | Some _ =>
      exists m, sam_parse e (line "SESSION" "CREATE" args) =
          Some (CCreate id (if beq style (lit "RAW") then SkAnonymous else SkDatagram) ctx m) /\
        rest_of m args /\
        mget (lit "HOST") m = Some (match given "HOST" args with Some h => h | None => lit "127.0.0.1" end)
  end.
Proof.
  intros e args id ctx v style H Hi Hs Ho Hv Hw.
  destruct (parse_create e args id style v ctx H Hi Hs Hv (written_create _ _ _ Hw)) as (_ & P & _).
  specialize (P Ho). destruct (given "PORT" args); [|exact P].
  destruct P as (m & E & [L _] & Hh). exists m. repeat apply conj; auto.
  intros k Hk. cbn [In] in Hk. apply L; intros ->; tauto.
Qed.
Print Assumptions C49_create_datagram.

Theorem C49_create_rejected :
  forall e args, Forall arg_ok args ->
  given "ID" args = None \/ given "STYLE" args = None \/ given "DESTINATION" args = None ->
  sam_parse e (line "SESSION" "CREATE" args) = None.
Proof. exact parse_create_missing. Qed.
Print Assumptions C49_create_rejected.

Theorem C49_lookup :
  forall e args, Forall arg_ok args ->
  sam_parse e (line "NAMING" "LOOKUP" args) = option_map CLookup (given "NAME" args).
Proof. exact parse_lookup. Qed.
Print Assumptions C49_lookup.

(** Only the supported signature type generates a destination. *)
Theorem C49_generate :
  forall e args, Forall arg_ok args ->
  sam_parse e (line "DEST" "GENERATE" args) =
  if match given "SIGNATURE_TYPE" args with Some t => beq t (lit "7") | None => false end
  then Some CGenerate else None.
Proof. exact parse_generate. Qed.
Print Assumptions C49_generate.

(** The private key in the reply to [DEST GENERATE], given back in a [SESSION CREATE], stands
    for the destination that was generated, with its two private keys. *)
Theorem C49_generated_keys_usable :
  forall e padding pk sk, ext_ok e -> length padding = 352%nat -> bytes_ok padding ->
  length pk = 32%nat -> length sk = 32%nat -> bytes_ok pk -> bytes_ok sk -> bytes_ok (ed_public e sk) ->
  let d := dest_new e padding (ed_public e sk) in
  exists priv,
    generate_reply e padding pk sk =
      lit "DEST REPLY PUB=" ++ base64_encode (ser_dest d) ++ lit " PRIV=" ++ priv ++ [10] /\
    written_dest e (Persistent d pk sk) priv.
Proof.
  intros e padding pk sk He Hp Hb Hk Hs Bk Bs Be d.
  exists (base64_encode (ser_dest d ++ pk ++ sk)). split; [reflexivity|].
  replace (ser_dest d ++ pk ++ sk) with (ser_dest d ++ pk ++ sk ++ []) by (now rewrite app_nil_r).
  apply wd_keys; auto.
  - intros r. destruct He. apply dest_new_parses; auto.
  - rewrite app_nil_r. unfold bytes_ok in *. rewrite !Forall_app. repeat split; auto.
    unfold d, dest_new, ser_dest. cbn [d_serialized]. rewrite !Forall_app.
    repeat split; auto; repeat constructor.
Qed.
Print Assumptions C49_generated_keys_usable.

(** What a quoted value cannot carry: escapes are accepted but stay in the value, and an empty
    value becomes the two quotes. *)
Theorem C49_refuted_escape :
  exists w v, w = lit "NAMING LOOKUP NAME=" ++ [34] ++ lit "a" ++ [92; 34] ++ lit "b" ++ [34] /\
    v = lit "a" ++ [34] ++ lit "b" /\
    sam_parse toy w = Some (CLookup (lit "a" ++ [92; 34] ++ lit "b")) /\
    sam_parse toy w <> Some (CLookup v).
Proof. do 2 eexists. repeat apply conj; try reflexivity. vm_compute. discriminate. Qed.
Print Assumptions C49_refuted_escape.
Theorem C49_refuted_empty_value :
  exists w, w = lit "NAMING LOOKUP NAME=" ++ [34; 34] /\
    sam_parse toy w = Some (CLookup [34; 34]) /\ sam_parse toy w <> Some (CLookup []).
Proof. eexists. repeat apply conj; try reflexivity. vm_compute. discriminate. Qed.
Print Assumptions C49_refuted_empty_value.

Definition ex_arg (k : string) (f : form) (v : list N) : arg := mkArg [32] (lit k) f v.
Lemma lit_key (b : N) t : is_alpha b || (b =? 95) = true ->
  forallb (fun x => is_alpha x || rng 48 57 x || (x =? 95) || (x =? 46)) t = true -> key_ok (b :: t).
Proof.
  intros Hb Ht. exists b, t. split; [reflexivity|]. split.
  - destruct (is_alpha b) eqn:E; [left; now apply letter_alpha|right; lia].
  - rewrite Forall_forall. intros x Hx. rewrite forallb_forall in Ht. specialize (Ht x Hx).
    destruct (is_alpha x) eqn:E; [left; now apply letter_alpha|]. right. unfold digit, rng in *. lia.
Qed.
Lemma bare_ok v : v <> [] -> hd 0 v <> 34 -> forallb (fun b => (33 <=? b) && (b <=? 126)) v = true ->
  value_ok Bare v.
Proof.
  intros H1 H2 H3. repeat apply conj; auto. rewrite Forall_forall. intros x Hx.
  rewrite forallb_forall in H3. specialize (H3 x Hx). lia.
Qed.
Ltac arg_tac := refine (conj _ (conj _ (conj _ _)));
  [discriminate|repeat constructor|apply lit_key; reflexivity
  |cbn [a_form a_value ex_arg]; first [apply bare_ok; [discriminate|discriminate|reflexivity]
    | split; [discriminate|repeat (constructor; [split; discriminate|]); constructor]]].

(** A persistent session with an option, and a stream by hash inside a URL. *)
Example C49_ex_create :
  exists v, written_dest toy (Persistent toy_dest (repeat 1 32) (repeat 2 32)) v /\
  let args := [ex_arg "STYLE" Bare (lit "STREAM"); ex_arg "ID" Quoted (lit "my session");
               ex_arg "i2cp.leaseSetEncType" Bare (lit "4"); ex_arg "DESTINATION" Bare v] in
  Forall arg_ok args /\ given "ID" args = Some (lit "my session") /\
  given "STYLE" args = Some (lit "STREAM") /\ given "DESTINATION" args = Some v.
Proof.
  eexists. split; [eapply (wd_keys toy toy_dest (repeat 1 32) (repeat 2 32) [])|].
  - exact toy_dest_ok.
  - apply Forall_forall. intros x Hx. 
    assert (forallb (fun b => b <? 256) (ser_dest toy_dest ++ repeat 1 32 ++ repeat 2 32 ++ []) = true) as F
      by (vm_compute; reflexivity).
    rewrite forallb_forall in F. specialize (F x Hx). apply N.ltb_lt. exact F.
  - reflexivity.
  - reflexivity.
  - split; [|vm_compute; auto].
    apply Forall_cons; [arg_tac|]. apply Forall_cons; [arg_tac|]. apply Forall_cons; [arg_tac|].
    apply Forall_cons; [|constructor].
    refine (conj _ (conj _ (conj _ _))); [discriminate|repeat constructor|apply lit_key; reflexivity|].
    cbn [a_form a_value ex_arg]. apply bare_ok; vm_compute; try discriminate. reflexivity.
Qed.
Example C49_ex_connect :
  let v := lit "http://" ++ base32_encode (repeat 7 32) ++ lit ".b32.i2p" ++ lit "/index.html" in
  let args := [ex_arg "ID" Bare (lit "s"); ex_arg "DESTINATION" Bare v; ex_arg "SILENT" Bare (lit "false")] in
  names toy (HkB32 (repeat 7 32)) v /\ Forall arg_ok args /\ given "DESTINATION" args = Some v.
Proof.
  cbv zeta. split; [|split; [|vm_compute; reflexivity]].
  - apply names_hash; [cbn; auto|]. apply Forall_forall. intros x Hx. apply repeat_spec in Hx. subst. reflexivity.
  - apply Forall_cons; [arg_tac|]. apply Forall_cons; [|apply Forall_cons; [arg_tac|constructor]].
    refine (conj _ (conj _ (conj _ _))); [discriminate|repeat constructor|apply lit_key; reflexivity|].
    cbn [a_form a_value ex_arg]. apply bare_ok; vm_compute; try discriminate. reflexivity.
Qed.

(** ** C10 *)
(** The first command is delivered however TCP cuts it, and so are the following ones, in
    order, provided each arrives in a read of its own.  (Missing for the full property:
    segmentation independence after the first command; it fails, see below.) *)
Theorem C10_commands_in_order_partial :
  forall e l ls cuts, Forall line_ok (l :: ls) ->
  concat cuts = with_newline l -> Forall (fun c => c <> []) cuts ->
  exists r, feed sam_room (sam_on_read e) sam_reader_new (cuts ++ map with_newline ls) =
      Some (r, flat_map (deliver e) (l :: ls)).
Proof. exact commands_in_order. Qed.
Print Assumptions C10_commands_in_order_partial.

(** The reader never overruns its buffer, whatever is read. *)
Theorem C10_buffer_bounded :
  forall e s out r, socket_reads sam_room (sam_on_read e) sam_reader_new s out r ->
  N.of_nat (length (sr_buf r)) = 4096 /\ N.of_nat (sr_off r) <= 4096.
Proof.
  intros e s out r H. rewrite <- sam_buffer_N.
  assert (bounded sam_reader_new) as B0.
  { split; [apply repeat_length|cbn; lia]. }
  assert (bounded r) as [B1 B2]; [|lia].
  remember sam_reader_new as r0 eqn:E0. clear E0. induction H; [exact B0|].
  apply IHsocket_reads. eapply bounded_step; eassumption.
Qed.
Print Assumptions C10_buffer_bounded.

(** After the first command, a command cut in two is lost; *)
Theorem C10_refuted_split_command :
  exists first rest cut1 cut2, rest = cut1 ++ cut2 /\ cut1 <> [] /\ cut2 <> [] /\
    line_ok first /\ rest = with_newline (lit "DEST GENERATE SIGNATURE_TYPE=7") /\
    deliver toy (lit "DEST GENERATE SIGNATURE_TYPE=7") = [CGenerate] /\
    exists r, feed sam_room (sam_on_read toy) sam_reader_new [with_newline first; cut1; cut2] =
      Some (r, deliver toy first).
Proof.
  exists (lit "HELLO VERSION"), (with_newline (lit "DEST GENERATE SIGNATURE_TYPE=7")), (lit "DEST "),
    (with_newline (lit "GENERATE SIGNATURE_TYPE=7")).
  repeat apply conj; try reflexivity; try discriminate.
  - cbn. intuition discriminate.
  - pose proof I as P.
    destruct (feed sam_room (sam_on_read toy) sam_reader_new
      [with_newline (lit "HELLO VERSION"); lit "DEST "; with_newline (lit "GENERATE SIGNATURE_TYPE=7")])
      as [[r o]|] eqn:E; apply (f_equal (option_map snd)) in E; vm_compute in E; [|discriminate].
    exists r. injection E as <-. reflexivity.
Qed.
Print Assumptions C10_refuted_split_command.

(** of two commands in one read, the second is lost; *)
Theorem C10_refuted_pipelined_commands :
  exists a b, line_ok a /\ line_ok b /\ deliver toy b = [CGenerate] /\
    exists r, feed sam_room (sam_on_read toy) sam_reader_new [with_newline a ++ with_newline b] =
      Some (r, deliver toy a).
Proof.
  exists (lit "HELLO VERSION"), (lit "DEST GENERATE SIGNATURE_TYPE=7").
  repeat apply conj; try reflexivity; try (cbn; intuition discriminate).
  destruct (feed sam_room (sam_on_read toy) sam_reader_new
    [with_newline (lit "HELLO VERSION") ++ with_newline (lit "DEST GENERATE SIGNATURE_TYPE=7")])
    as [[r o]|] eqn:E; apply (f_equal (option_map snd)) in E; vm_compute in E; [|discriminate].
  exists r. injection E as <-. reflexivity.
Qed.
Print Assumptions C10_refuted_pipelined_commands.

(** and the first piece of a command, completed by what is left of the previous one, is run as
    a command nobody sent. *)
Theorem C10_refuted_invented_command :
  exists a b, line_ok a /\ ~ In 10 b /\
    exists r, feed sam_room (sam_on_read toy) sam_reader_new [with_newline a; b] =
      Some (r, [CLookup (lit "aaaa.i2p"); CLookup (lit "bbaa.i2p")]) /\
    a = lit "NAMING LOOKUP NAME=aaaa.i2p" /\ b = lit "NAMING LOOKUP NAME=bb".
Proof.
  exists (lit "NAMING LOOKUP NAME=aaaa.i2p"), (lit "NAMING LOOKUP NAME=bb").
  repeat apply conj; try reflexivity; try (cbn; intuition discriminate).
  destruct (feed sam_room (sam_on_read toy) sam_reader_new
    [with_newline (lit "NAMING LOOKUP NAME=aaaa.i2p"); lit "NAMING LOOKUP NAME=bb"])
    as [[r o]|] eqn:E; apply (f_equal (option_map snd)) in E; vm_compute in E; [|discriminate].
  exists r. injection E as <-. repeat apply conj; reflexivity.
Qed.
Print Assumptions C10_refuted_invented_command.

Example C10_ex : line_ok (lit "HELLO VERSION MIN=3.1") /\
  concat [lit "HEL"; lit "LO VERSION MIN="; with_newline (lit "3.1")] = with_newline (lit "HELLO VERSION MIN=3.1").
Proof. repeat apply conj; try reflexivity. cbn. intuition discriminate. Qed.

(** ** C12 *)
(** A connection asks for a session or a stream exactly when its commands are one [HELLO],
    then utility commands, then the command that asks; it asks for what that command says, and
    by then it has answered the [HELLO] and each utility command, once each and in order. *)
Theorem C12_request_only_after_hello :
  forall gen evs v k out,
  conn_run gen AwaitingHandshake evs = (ConnReady v k, out) <->
  exists mn mx us c later replies,
    evs = EvCommand (CHello mn mx) :: map EvCommand us ++ EvCommand c :: later /\
    asks c = Some k /\ v = negotiate mx /\
    map Some replies = map (utility_reply gen) us /\
    out = (lit "HELLO REPLY RESULT=OK VERSION=" ++ show_version v ++ [10]) :: replies.
Proof.
  intros gen evs v k out. split.
  - intros H. destruct evs as [|ev evs]; [discriminate|]. cbn [conn_run] in H.
    destruct ev as [c0| |]; [destruct c0|..]; cbn [conn_step] in H;
      try (rewrite run_failed in H; discriminate H).
    destruct (conn_run gen (Handshaked (negotiate max)) evs) as [s2 o2] eqn:E.
    apply pair_equal_spec in H as [-> <-].
    apply run_shaken in E as (-> & us & c & later & -> & F & A & M).
    exists min, max, us, c, later, o2. repeat apply conj; auto.
  - intros (mn & mx & us & c & later & replies & -> & A & -> & M & ->).
    cbn [conn_run conn_step].
    assert (Forall (fun u => utility_reply gen u <> None) us) as F.
    { clear -M. revert replies M. induction us as [|u us IH]; intros [|r rs] M; try discriminate; constructor.
      - cbn [map] in M. congruence.
      - cbn [map] in M. injection M as _ M. eapply IH, M. }
    destruct (run_ask gen (negotiate mx) us c later k F A) as (o & -> & M2).
    assert (o = replies) as ->.
    { rewrite <- M in M2. clear -M2. revert replies M2. induction o as [|x o IH]; intros [|y r] M2; try discriminate; auto.
      cbn [map] in M2. injection M2 as -> M2. f_equal. now apply IH. }
    reflexivity.
Qed.
Print Assumptions C12_request_only_after_hello.

(** At most one request per connection: it is never replaced by a later one. *)
Theorem C12_at_most_one_request :
  forall gen evs more v k out,
  conn_run gen AwaitingHandshake evs = (ConnReady v k, out) ->
  conn_run gen AwaitingHandshake (evs ++ more) = (ConnReady v k, out).
Proof.
  intros gen evs more v k out H. rewrite C12_request_only_after_hello in H |- *.
  destruct H as (mn & mx & us & c & later & replies & -> & P).
  exists mn, mx, us, c, (later ++ more), replies. split; [|exact P].
  cbn [app]. rewrite <- app_assoc. reflexivity.
Qed.
Print Assumptions C12_at_most_one_request.

(** The version agreed on is the highest the router supports that is not above the client's. *)
Theorem C12_version :
  forall mx, version_number (negotiate mx) =
    N.min 32 (match mx with Some v => version_number v | None => 32 end).
Proof. intros [[]|]; reflexivity. Qed.
Print Assumptions C12_version.

(** The client's lowest version is not looked at: a client that asks for at least 3.3 is told
    [RESULT=OK] and a version it does not accept, where the protocol asks for [NOVERSION]. *)
Theorem C12_refuted_noversion :
  exists evs c,
    sam_parse toy (line "HELLO" "VERSION" [ex_arg "MIN" Bare (lit "3.3"); ex_arg "MAX" Bare (lit "3.3")]) = Some c /\
    evs = [EvCommand c] /\
    conn_run [] AwaitingHandshake evs = (Handshaked V32, [lit "HELLO REPLY RESULT=OK VERSION=3.2" ++ [10]]).
Proof. do 2 eexists. repeat apply conj; vm_compute; reflexivity. Qed.
Print Assumptions C12_refuted_noversion.

Example C12_ex :
  exists out, conn_run (lit "x") AwaitingHandshake
    [EvCommand (CHello None (Some V33)); EvCommand (CLookup (lit "a.i2p")); EvCommand CGenerate;
     EvCommand (CAccept (lit "id") []); EvClosed] = (ConnReady V32 (KAccept (lit "id") []), out) /\
    length out = 3%nat.
Proof. eexists. split; reflexivity. Qed.

(** Exactly the keys of the grammar are read, and each to its end. *)
Definition key_char (x : N) : Prop := letter x \/ digit x \/ x = 95 \/ x = 46.
Theorem C49_keys : forall i k r, parse_key i = Some (k, r) <->
  i = k ++ r /\ key_ok k /\ match r with [] => True | x :: _ => ~ key_char x end.
Proof.
  assert (hm : forall x, key_more x = true <-> key_char x).
  { intros x. unfold key_more, key_char, is_alpha, is_digit, rng, letter, digit. lia. }
  assert (hs : forall i a z, span key_more i = (a, z) <->
    i = a ++ z /\ Forall key_char a /\ match z with [] => True | x :: _ => ~ key_char x end).
  { induction i as [|x i IH]; intros a z; cbn [span].
    - split; [intros h; apply pair_equal_spec in h as [<- <-]; auto|]. intros (h & _). symmetry in h.
      apply app_eq_nil in h as [-> ->]. reflexivity.
    - destruct (key_more x) eqn:ex.
      + destruct (span key_more i) as [a' z'] eqn:es. split.
        * intros h. apply pair_equal_spec in h as [<- <-]. destruct (proj1 (IH _ _) eq_refl) as (-> & h2 & h3).
          split; [reflexivity|]. split; [|exact h3]. constructor; [apply hm; exact ex | exact h2].
        * intros (h1 & h2 & h3). destruct a as [|y a].
          { cbn in h1. subst z. exfalso. apply h3, hm, ex. }
          { cbn in h1. injection h1 as <- h1. inversion h2; subst.
            assert (E : (a', z') = (a, z)) by (apply IH; auto). apply pair_equal_spec in E as [-> ->]. reflexivity. }
      + assert (nx : ~ key_char x) by (intros h; apply hm in h; congruence). split.
        * intros h. apply pair_equal_spec in h as [<- <-]. auto.
        * intros (h1 & h2 & h3). destruct a as [|y a]; [cbn in h1; subst z; reflexivity|].
          cbn in h1. injection h1 as <- h1. inversion h2; subst. contradiction. }
  assert (hb : forall x, key_start x = true <-> letter x \/ x = 95).
  { intros x. unfold key_start, is_alpha, rng, letter. lia. }
  intros i k r. unfold parse_key. destruct i as [|b i].
  - split; [discriminate|]. intros (h & (x & t & -> & _) & _). discriminate h.
  - destruct (key_start b) eqn:eb.
    + destruct (span key_more i) as [a z] eqn:es. destruct (proj1 (hs _ _ _) es) as (e1 & e2 & e3). split.
      * intros h. injection h as <- <-. split; [cbn; rewrite e1; reflexivity|]. split; [|exact e3].
        exists b, a. split; [reflexivity|]. split; [apply hb; exact eb | exact e2].
      * intros (h1 & (x & t & -> & h2 & h3) & h4). cbn in h1. injection h1 as <- h1.
        assert (E : span key_more i = (t, r)) by (apply hs; auto). rewrite es in E. apply pair_equal_spec in E as [-> ->]. reflexivity.
    + split; [discriminate|]. intros (h1 & (x & t & -> & h2 & h3) & h4). cbn in h1. injection h1 as <- h1.
      apply hb in h2. congruence.
Qed.
Print Assumptions C49_keys.
Example C49_keys_ex : parse_key [73; 68; 46; 49; 61; 120] = Some ([73; 68; 46; 49], [61; 120]).
Proof. reflexivity. Qed.
