(** The HTTP proxy: where requests go, what they say, what becomes of bodies and of failures. *)
From Coq Require Import Ascii String.
From Coq Require Import List NArith PeanoNat Bool Lia.
From Verif Require Import ListUtil Bytes SamModel PrimModel PrimSpec PrimProps2 HttpModel HttpSpec HttpProofs.
Import ListNotations.
Local Open Scope list_scope.
Open Scope N_scope.

(** Of the examples: a parser that knows one request, [l], whose head is [h]. *)
Definition knows (l : list N) (h : head) (b : list N) : presult :=
  if starts_with l b then PComplete h (length l) else if starts_with b l then PPartial else PErr.
Definition no_url (p : list N) : option url := None.
Definition all_utf8 (b : list N) : bool := true.

Lemma starts_app p b c : starts_with p b = true -> starts_with p (b ++ c) = true.
Proof. rewrite !starts_iff. intros [r ->]. exists (r ++ c). rewrite app_assoc. reflexivity. Qed.

Lemma knows_laws l h : Forall (fun hd => token (fst hd) /\ one_line (snd hd)) (h_headers h) ->
  (forall p, h_path h = Some p -> one_line p) -> httparse_laws (knows l h).
Proof.
  intros H P. unfold knows. constructor.
  - intros b h' n c E. destruct (starts_with l b) eqn:S; [|destruct (starts_with b l); discriminate]. injection E as <- <-.
    rewrite (starts_app _ _ _ S). split; [|reflexivity]. apply starts_iff in S as [r ->]. rewrite app_length. lia.
  - intros b c E. destruct (starts_with l b) eqn:S; [discriminate|]. destruct (starts_with b l) eqn:S'; [discriminate|].
    destruct (starts_with (b ++ c) l) eqn:S2.
    + apply starts_iff in S2 as [r ->]. rewrite <- app_assoc in S'. rewrite (proj2 (starts_iff b (b ++ c ++ r))) in S' by (eexists; reflexivity). discriminate.
    + destruct (starts_with l (b ++ c)) eqn:S3; [|reflexivity]. exfalso. apply starts_iff in S3 as [r Er].
      apply not_true_iff_false in S. apply not_true_iff_false in S'. rewrite starts_iff in S, S'.
      destruct (prefixes b l (b ++ c) (length b) (length l)) as [[x X]|[x X]].
      * rewrite firstn_app, Nat.sub_diag, firstn_all, app_nil_r. reflexivity.
      * rewrite Er, firstn_app, Nat.sub_diag, firstn_all, app_nil_r. reflexivity.
      * apply S'. exists x. exact X.
      * apply S. exists x. exact X.
  - intros b h' n E. destruct (starts_with l b); [|destruct (starts_with b l); discriminate]. injection E as <- _. exact H.
  - intros b h' n p E Q. destruct (starts_with l b); [|destruct (starts_with b l); discriminate]. injection E as <- _. apply P, Q.
Qed.
Lemma no_url_laws : url_laws no_url.
Proof. intros p u E. discriminate. Qed.

(** * C117: requests go to .i2p hosts, and to the one asked for *)
Lemma serve_connect httparse url_parse utf8 rs c host : In (HConnect host) (serve httparse url_parse utf8 rs c) ->
  exists q, read_request httparse url_parse utf8 [] rs = RReady host q.
Proof.
  unfold serve. destruct (read_request httparse url_parse utf8 [] rs) as [| |e|h q|]; cbn [In]; try tauto.
  - destruct e; cbn [In]; intros X; repeat (destruct X as [X|X]; [discriminate|]); destruct X.
  - intros [X|X].
    + assert (h = host) by (exact (f_equal (fun x => match x with HConnect a => a | _ => [] end) X)). subst. exists q. reflexivity.
    + exfalso. destruct c; cbn [In] in X; repeat (destruct X as [X|X]; [discriminate|]); destruct X.
Qed.

(** A destination is connected to only for a complete request, and it is what the first Host header
    says, less "www." in front; it ends in ".i2p". *)
Theorem C117_only_i2p : forall httparse url_parse utf8 rs c host,
  In (HConnect host) (serve httparse url_parse utf8 rs c) ->
  exists k h n before name v after r,
    httparse (firstn k (sent rs)) = PComplete h n
    /\ h_headers h = before ++ (name, v) :: after /\ same_name name "host" /\ (forall x, In x before -> ~ same_name (fst x) "host")
    /\ (v = lit "www." ++ host \/ (v = host /\ forall y, v <> lit "www." ++ y))
    /\ host = r ++ lit ".i2p".
Proof.
  intros httparse url_parse utf8 rs c host H. apply serve_connect in H as [q H].
  apply read_ready in H as (used & A & _ & (k & U) & _). cbn [app] in U.
  apply accept_inv in A as (h & n & m & v & p & E & _ & _ & F & _ & Hh & W & _). subst used.
  unfold find_host in F. destruct (find (fun hd => beq (lower (fst hd)) (lit "host")) (h_headers h)) as [[name v']|] eqn:G; [|discriminate].
  injection F as <-. apply ends_iff in W as [r W].
  assert (Sp : exists before after, h_headers h = before ++ (name, v') :: after /\ same_name name "host" /\ (forall x, In x before -> ~ same_name (fst x) "host")).
  { clear -G. induction (h_headers h) as [|hd hs IH]; [discriminate|]. cbn [find] in G. destruct (beq (lower (fst hd)) (lit "host")) eqn:B.
    - injection G as ->. exists [], hs. split; [reflexivity|]. apply beq_eq in B. split; [exact B|]. intros x [].
    - destruct (IH G) as (bf & af & -> & S & N). exists (hd :: bf), af. split; [reflexivity|]. split; [exact S|].
      intros x [<-|X]; [|apply N, X]. intros Y. unfold same_name, lower in *. rewrite Y, beq_refl in B. discriminate. }
  destruct Sp as (bf & af & S1 & S2 & S3). exists k, h, n, bf, name, v', af, r. split; [exact E|]. do 3 (split; [assumption|]).
  split; [|exact W]. unfold strip_prefix in Hh. destruct (starts_with (lit "www.") v') eqn:Sw.
  - left. apply starts_iff in Sw as [y Y]. rewrite Hh, Y. reflexivity.
  - right. split; [auto|]. intros y Y. apply not_true_iff_false in Sw. apply Sw. apply starts_iff. exists y. exact Y.
Qed.
Print Assumptions C117_only_i2p.

(** Nothing is sent anywhere before or without such a connection. *)
Theorem C117_no_other_way_out : forall httparse url_parse utf8 rs c b,
  In (HToRemote b) (serve httparse url_parse utf8 rs c) ->
  exists host a, serve httparse url_parse utf8 rs c = [HConnect host; HToRemote b; HToClient a] /\ c = COk a.
Proof.
  intros httparse url_parse utf8 rs c b H. unfold serve in *. destruct (read_request httparse url_parse utf8 [] rs) as [| |e|h q|]; cbn [In] in H; try tauto.
  - exfalso. destruct e; cbn [In] in H; repeat (destruct H as [H|H]; [discriminate|]); destruct H.
  - destruct c as [|a]; cbn [In] in H.
    + exfalso. repeat (destruct H as [H|H]; [discriminate|]). destruct H.
    + destruct H as [H|[H|[H|[]]]]; [discriminate| |discriminate].
      assert (q = b) by (exact (f_equal (fun x => match x with HToRemote a => a | _ => [] end) H)). subst. exists h, a. auto.
Qed.
Print Assumptions C117_no_other_way_out.

(** A request for "http://bad.i2p/x" with the header "Host: good.i2p". *)
Definition req1 : list N := lit "GET http://bad.i2p/x HTTP/1.1" ++ CRLF ++ lit "Host: good.i2p" ++ CRLF ++ CRLF.
Definition head1 : head := mkHead (Some (lit "GET")) (Some (lit "http://bad.i2p/x")) [(lit "Host", lit "good.i2p")].
Definition url1 (p : list N) : option url := if beq p (lit "http://bad.i2p/x") then Some (mkUrl (lit "bad.i2p") (lit "/x") None) else None.

(** A proxy has to go by the host in the request line and ignore the Host header if there is both;
    this one does the opposite. *)
Theorem C117_target_refuted : exists httparse url_parse rs h n p u host,
  httparse_laws httparse /\ url_laws url_parse /\ httparse (sent rs) = PComplete h n /\ h_path h = Some p /\ url_parse p = Some u
  /\ In (HConnect host) (serve httparse url_parse all_utf8 rs CFail) /\ host <> u_host u.
Proof.
  exists (knows req1 head1), url1, [RData req1], head1, (length req1), (lit "http://bad.i2p/x"), (mkUrl (lit "bad.i2p") (lit "/x") None), (lit "good.i2p").
  split.
  { apply knows_laws.
    - constructor; [|constructor]. split; [apply token_lit; [reflexivity|discriminate]|apply line_lit; reflexivity].
    - intros p E. injection E as <-. apply (line_lit "http://bad.i2p/x"). reflexivity. }
  split.
  { intros p u E _. unfold url1 in E. destruct (beq p (lit "http://bad.i2p/x")); [|discriminate]. injection E as <-. cbn [u_path u_query].
    split; [apply (line_lit "/x"); reflexivity|discriminate]. }
  split; [vm_compute; reflexivity|]. split; [reflexivity|]. split; [vm_compute; reflexivity|]. split; [|discriminate].
  assert (R : read_request (knows req1 head1) url1 all_utf8 [] [RData req1]
    = RReady (lit "good.i2p") (lit "GET /x HTTP/1.1" ++ CRLF ++ lit "Host: good.i2p" ++ CRLF ++ CRLF)) by (vm_compute; reflexivity).
  unfold serve. rewrite R. left. reflexivity.
Qed.
Print Assumptions C117_target_refuted.

(** * C118: what a destination is told *)
Definition told (httparse : list N -> presult) url_parse utf8 rs c (q : list N) : Prop := In (HToRemote q) (serve httparse url_parse utf8 rs c).

Lemma told_inv httparse url_parse utf8 rs c q : told httparse url_parse utf8 rs c q ->
  exists host used k, parse_request httparse url_parse utf8 used = PAccept host q /\ used = firstn k (sent rs) /\ (length used <= BUF)%nat
    /\ In (HConnect host) (serve httparse url_parse utf8 rs c) /\ (0 < length used)%nat.
Proof.
  unfold told. intros H. destruct (C117_no_other_way_out _ _ _ _ _ _ H) as (host & a & E & _).
  assert (R : read_request httparse url_parse utf8 [] rs = RReady host q).
  { unfold serve in E. destruct (read_request httparse url_parse utf8 [] rs) as [| |e|h q'|]; try discriminate; [destruct e; discriminate|].
    destruct c; [discriminate|]. injection E as -> -> _. reflexivity. }
  destruct (read_ready _ _ _ _ _ _ _ R) as (used & A & L & (k & U) & Lu). cbn [app length] in *.
  exists host, used, k. split; [exact A|]. split; [exact U|]. split; [lia|]. split; [rewrite E; left; reflexivity|lia].
Qed.

(** Names are compared as if written in lower case. *)
Theorem C118_any_case : forall c, lower_byte c = lowered c.
Proof.
  intros c. destruct (c <? 128) eqn:C.
  - apply N.ltb_lt in C. assert (In c (map N.of_nat (seq 0 128))) as I.
    { apply in_map_iff. exists (N.to_nat c). rewrite N2Nat.id. split; [reflexivity|]. apply in_seq. lia. }
    clear C. revert c I. apply Forall_forall.
    assert (X : forallb (fun c => lower_byte c =? lowered c) (map N.of_nat (seq 0 128)) = true) by (vm_compute; reflexivity).
    rewrite forallb_forall in X. apply Forall_forall. intros c I. apply N.eqb_eq, X, I.
  - apply N.ltb_ge in C. unfold lower_byte, lowered.
    replace (c <=? 90) with false by (symmetry; apply N.leb_gt; lia). rewrite andb_false_r.
    assert (F : forall l, (forall p, In p l -> fst p < 128) -> find (fun p : N * N => fst p =? c) l = None).
    { induction l as [|p l IH]; intros L; [reflexivity|]. cbn [find].
      replace (fst p =? c) with false; [apply IH; intros q Q; apply L; right; exact Q|].
      symmetry. apply N.eqb_neq. specialize (L p (or_introl eq_refl)). lia. }
    rewrite F; [reflexivity|]. apply Forall_forall.
    assert (X : forallb (fun p : N * N => fst p <? 128) (combine (lit "ABCDEFGHIJKLMNOPQRSTUVWXYZ") (lit "abcdefghijklmnopqrstuvwxyz")) = true) by (vm_compute; reflexivity).
    rewrite forallb_forall in X. apply Forall_forall. intros p I. apply N.ltb_lt, X, I.
Qed.
Print Assumptions C118_any_case.

Section Clean.
Variable utf8 : list N -> bool.
Variable host : list N.
Notation cl := (clean_header utf8 host).

Lemma not_illegal n : existsb (fun p => starts_with p (lower n)) ILLEGAL = false ->
  ~ prefixed n "accept" /\ ~ prefixed n "referer" /\ ~ telling n.
Proof.
  intros H. assert (G : forall s, In (lit s) ILLEGAL -> ~ prefixed n s).
  { intros s I [r R]. apply not_true_iff_false in H. apply H. apply existsb_exists. exists (lit s). split; [exact I|]. apply starts_iff. exists r. exact R. }
  repeat split; [apply G; cbn [ILLEGAL In]; tauto|apply G; cbn [ILLEGAL In]; tauto|].
  unfold telling. intros [X|[X|[X|[X|[X|[X|[X|[X _]]]]]]]]; revert X; apply G; unfold ILLEGAL; cbn [In]; tauto.
Qed.

Lemma cl_fst_plain hd hd' : In hd' (cl hd) -> hd' = hd \/ In (fst hd') [lit "User-Agent"; lit "Accept-Encoding"; lit "Connection"; lit "Referer"].
Proof.
  unfold clean_header. cbv zeta.
  repeat match goal with |- context [if ?c then _ else _] => destruct c end; cbn [In]; intros H;
    try tauto; destruct H as [<-|[]]; cbn [fst]; auto 8.
Qed.

Lemma not_telling s : forallb (fun p => negb (starts_with p (lower (lit s)))) [lit "x-requested-with"; lit "via"; lit "from"; lit "forwarded"; lit "dnt"; lit "x-forwarded"; lit "proxy-"] = true ->
  (starts_with (lit "accept") (lower (lit s)) = false \/ lower (lit s) = lit "accept-encoding") -> ~ telling (lit s).
Proof.
  intros F A. rewrite forallb_forall in F.
  assert (G : forall t, In (lit t) [lit "x-requested-with"; lit "via"; lit "from"; lit "forwarded"; lit "dnt"; lit "x-forwarded"; lit "proxy-"] -> ~ prefixed (lit s) t).
  { intros t I [r R]. specialize (F _ I). apply negb_true_iff, not_true_iff_false in F. apply F, starts_iff. exists r. exact R. }
  unfold telling. intros [X|[X|[X|[X|[X|[X|[X|[X Y]]]]]]]]; [revert X; apply G; cbn [In]; tauto..|].
  destruct A as [A|A]; [|apply Y, A]. destruct X as [r R]. apply not_true_iff_false in A. apply A, starts_iff. exists r. exact R.
Qed.

Lemma cl_safe hd hd' : In hd' (cl hd) ->
  ~ telling (fst hd')
  /\ (same_name (fst hd') "user-agent" -> snd hd' = lit "MYOB/6.66 (AN/ON)")
  /\ (same_name (fst hd') "connection" -> snd hd' = lit "close" \/ snd hd' = lit "upgrade")
  /\ (same_name (fst hd') "referer" -> exists a b, snd hd' = a ++ host ++ b).
Proof.
  unfold clean_header. cbv zeta.
  destruct (beq (lower (fst hd)) (lit "user-agent")) eqn:B1.
  { intros [<-|[]]. cbn [fst snd]. split; [apply not_telling; [reflexivity|left; reflexivity]|]. split; [reflexivity|]. split; intros X; discriminate X. }
  destruct (starts_with (lit "accept") (lower (fst hd))) eqn:B2.
  { destruct (beq (lower (fst hd)) (lit "accept-encoding")); [|intros []]. intros [<-|[]]. cbn [fst snd].
    split; [apply not_telling; [reflexivity|right; reflexivity]|]. repeat split; intros X; discriminate X. }
  destruct (beq (lower (fst hd)) (lit "connection")) eqn:B3.
  { assert (T : ~ telling (lit "Connection")) by (apply not_telling; [reflexivity|left; reflexivity]).
    destruct (utf8 (snd hd) && beq (lower (snd hd)) (lit "upgrade")); intros [<-|[]]; cbn [fst snd]; (split; [exact T|]);
      (split; [intros X; discriminate X|]); (split; [auto|intros X; discriminate X]). }
  destruct (beq (lower (fst hd)) (lit "referer")) eqn:B4.
  { destruct (utf8 (snd hd) && contains host (snd hd)) eqn:C; [|intros []]. intros [<-|[]]. cbn [fst snd].
    split; [apply not_telling; [reflexivity|left; reflexivity]|]. split; [intros X; discriminate X|]. split; [intros X; discriminate X|].
    intros _. apply andb_prop in C as [_ C]. apply contains_iff in C. exact C. }
  destruct (existsb (fun p => starts_with p (lower (fst hd))) ILLEGAL) eqn:B5; [intros []|].
  intros [<-|[]]. destruct (not_illegal _ B5) as (_ & _ & T). split; [exact T|].
  unfold same_name. fold (lower (fst hd)). repeat split; intros X; rewrite X, beq_refl in *; discriminate.
Qed.

(** Names whose headers are passed on as they are. *)
Definition plain (n : list N) : Prop :=
  ~ same_name n "user-agent" /\ ~ same_name n "connection" /\ ~ prefixed n "referer" /\ ~ prefixed n "accept" /\ ~ telling n.

Lemma cl_plain hd : plain (fst hd) -> cl hd = [hd].
Proof.
  intros (A & B & C & D & E). unfold clean_header. cbv zeta.
  destruct (beq (lower (fst hd)) (lit "user-agent")) eqn:B1; [exfalso; apply A, beq_eq, B1|].
  destruct (starts_with (lit "accept") (lower (fst hd))) eqn:B2; [exfalso; apply D; apply starts_iff in B2; exact B2|].
  destruct (beq (lower (fst hd)) (lit "connection")) eqn:B3; [exfalso; apply B, beq_eq, B3|].
  destruct (beq (lower (fst hd)) (lit "referer")) eqn:B4; [exfalso; apply C; apply beq_eq in B4; exists []; rewrite app_nil_r; exact B4|].
  destruct (existsb (fun p => starts_with p (lower (fst hd))) ILLEGAL) eqn:B5; [|reflexivity]. exfalso.
  apply existsb_exists in B5 as (p & I & S). apply starts_iff in S. unfold ILLEGAL in I. unfold telling, prefixed in *. fold (lower (fst hd)) in *.
  cbn [In] in I. repeat (destruct I as [<-|I]; [tauto|]). destruct I.
Qed.

Lemma cl_kept f hs : (forall n, f n = true -> plain n) ->
  filter (fun hd => f (fst hd)) (flat_map cl hs) = filter (fun hd => f (fst hd)) hs.
Proof.
  intros F. induction hs as [|hd hs IH]; [reflexivity|]. cbn [flat_map filter]. rewrite filter_app, IH. destruct (f (fst hd)) eqn:E.
  - rewrite (cl_plain hd (F _ E)). cbn [filter]. rewrite E. reflexivity.
  - assert (Z : filter (fun hd => f (fst hd)) (cl hd) = []); [|rewrite Z; reflexivity].
    destruct (filter (fun hd => f (fst hd)) (cl hd)) as [|x l] eqn:G; [reflexivity|]. exfalso.
    assert (I : In x (filter (fun hd => f (fst hd)) (cl hd))) by (rewrite G; left; reflexivity).
    apply filter_In in I as [I J]. destruct (cl_fst_plain _ _ I) as [->|K]; [congruence|].
    destruct (F _ J) as (A & B & C & D & _).
    cbn [In] in K. destruct K as [K|[K|[K|[K|[]]]]]; rewrite <- K in *;
      [apply A; reflexivity|apply D; exists (lit "-encoding"); reflexivity|apply B; reflexivity|apply C; exists []; reflexivity].
Qed.

Lemma cl_named (s : string) hs : In s ["user-agent"%string; "connection"%string; "accept-encoding"%string] ->
  length (filter (fun hd => beq (lower (fst hd)) (lit s)) (flat_map cl hs)) = length (filter (fun hd => beq (lower (fst hd)) (lit s)) hs)
  /\ (s = "accept-encoding"%string -> map snd (filter (fun hd => beq (lower (fst hd)) (lit s)) (flat_map cl hs)) = map snd (filter (fun hd => beq (lower (fst hd)) (lit s)) hs)).
Proof.
  intros I. assert (One : forall hd, length (filter (fun hd => beq (lower (fst hd)) (lit s)) (cl hd)) = length (filter (fun hd => beq (lower (fst hd)) (lit s)) [hd])
    /\ (s = "accept-encoding"%string -> map snd (filter (fun hd => beq (lower (fst hd)) (lit s)) (cl hd)) = map snd (filter (fun hd => beq (lower (fst hd)) (lit s)) [hd]))).
  { intros hd. unfold clean_header. cbv zeta. cbn [filter].
    destruct (beq (lower (fst hd)) (lit "user-agent")) eqn:B1.
    { apply beq_eq in B1. rewrite B1. cbn [In] in I. destruct I as [<-|[<-|[<-|[]]]]; split; try reflexivity; intros X; discriminate X. }
    destruct (starts_with (lit "accept") (lower (fst hd))) eqn:B2.
    { destruct (beq (lower (fst hd)) (lit "accept-encoding")) eqn:B3.
      - apply beq_eq in B3. rewrite B3. cbn [In] in I. destruct I as [<-|[<-|[<-|[]]]]; split; try reflexivity; intros X; discriminate X.
      - assert (Z : beq (lower (fst hd)) (lit s) = false).
        { cbn [In] in I. destruct I as [<-|[<-|[<-|[]]]]; [exact B1| |exact B3].
          apply not_true_iff_false. intros X. apply beq_eq in X. rewrite X in B2. discriminate. }
        rewrite Z. split; reflexivity. }
    destruct (beq (lower (fst hd)) (lit "connection")) eqn:B3.
    { apply beq_eq in B3. rewrite B3. destruct (utf8 (snd hd) && beq (lower (snd hd)) (lit "upgrade"));
        cbn [In] in I; destruct I as [<-|[<-|[<-|[]]]]; split; try reflexivity; intros X; discriminate X. }
    assert (Z : beq (lower (fst hd)) (lit s) = false).
    { cbn [In] in I. destruct I as [<-|[<-|[<-|[]]]]; [exact B1|exact B3|].
      apply not_true_iff_false. intros X. apply beq_eq in X. rewrite X in B2. discriminate. }
    rewrite Z. destruct (beq (lower (fst hd)) (lit "referer")) eqn:B4.
    { destruct (utf8 (snd hd) && contains host (snd hd)); [|split; reflexivity].
      cbn [In] in I. destruct I as [<-|[<-|[<-|[]]]]; split; reflexivity. }
    destruct (existsb (fun p => starts_with p (lower (fst hd))) ILLEGAL); [split; reflexivity|]. cbn [filter]. rewrite Z. split; reflexivity. }
  induction hs as [|hd hs [IH1 IH2]]; [split; reflexivity|]. destruct (One hd) as [O1 O2]. cbn [flat_map].
  change (hd :: hs) with ([hd] ++ hs). rewrite !filter_app, !app_length, !map_app.
  split; [rewrite O1, IH1; reflexivity|]. intros E. rewrite O2, IH2 by exact E. reflexivity.
Qed.
End Clean.

(** However the destination reads the request, it reads a GET or POST as the browser sent it, for
    the path asked for, and these headers: none that tells of the browser; a fixed User-Agent where
    there was one; Connection only as "close" or "upgrade"; Referer only if the host is in it; the
    encodings as they were; and all others unchanged and in order. *)
Theorem C118_what_is_told : forall httparse url_parse utf8 rs c q,
  httparse_laws httparse -> url_laws url_parse -> told httparse url_parse utf8 rs c q ->
  exists host k h n m p hs body,
    In (HConnect host) (serve httparse url_parse utf8 rs c)
    /\ httparse (firstn k (sent rs)) = PComplete h n /\ h_method h = Some m /\ (m = lit "GET" \/ m = lit "POST") /\ h_path h = Some p
    /\ (forall l hs' body', is_request q l hs' body' <->
          (l = m ++ lit " " ++ match url_parse p with
             | Some u => u_path u ++ match u_query u with Some x => lit "?" ++ x | None => [] end
             | None => p end ++ lit " HTTP/1.1" /\ hs' = hs /\ body' = body))
    /\ (forall x, In x hs -> ~ telling (fst x)
          /\ (same_name (fst x) "user-agent" -> snd x = lit "MYOB/6.66 (AN/ON)")
          /\ (same_name (fst x) "connection" -> snd x = lit "close" \/ snd x = lit "upgrade")
          /\ (same_name (fst x) "referer" -> exists a b, snd x = a ++ host ++ b))
    /\ (forall f, (forall n, f n = true -> plain n) ->
          filter (fun hd => f (fst hd)) hs = filter (fun hd => f (fst hd)) (h_headers h))
    /\ (forall s, In s ["user-agent"%string; "connection"%string; "accept-encoding"%string] ->
          let named := filter (fun hd => beq (lower (fst hd)) (lit s)) in
          length (named hs) = length (named (h_headers h))
          /\ (s = "accept-encoding"%string -> map snd (named hs) = map snd (named (h_headers h)))).
Proof.
  intros httparse url_parse utf8 rs c q HL UL T. destruct (told_inv _ _ _ _ _ _ T) as (host & used & k & A & U & _ & Con & _).
  destruct (accept_request _ _ _ _ _ _ HL UL A) as (h & n & m & p & E & M & GP & P & R).
  exists host, k, h, n, m, p, (flat_map (clean_header utf8 host) (h_headers h)), (skipn n used).
  split; [exact Con|]. split; [rewrite <- U; exact E|]. do 3 (split; [assumption|]). split.
  - assert (Op : out_path url_parse p = match url_parse p with
             | Some u => u_path u ++ match u_query u with Some x => lit "?" ++ x | None => [] end | None => p end).
    { unfold out_path. destruct (url_parse p) as [u|]; [|reflexivity]. destruct (u_query u); [reflexivity|rewrite app_nil_r; reflexivity]. }
    rewrite Op in R. intros l hs' body'. split.
    + intros R'. destruct (is_request_unique _ _ _ _ _ _ _ R' R) as (-> & -> & ->). auto.
    + intros (-> & -> & ->). exact R.
  - split; [|split].
    + intros x X. apply in_flat_map in X as (hd & _ & X). apply (cl_safe utf8 host hd x X).
    + intros f F. apply cl_kept. exact F.
    + intros s I. apply cl_named. exact I.
Qed.
Print Assumptions C118_what_is_told.

Definition req2 : list N := lit "POST / HTTP/1.1" ++ CRLF ++ lit "Host: www.a.i2p" ++ CRLF ++ lit "User-Agent: x" ++ CRLF
  ++ lit "Accept-Language: fi" ++ CRLF ++ lit "Referer: http://clear.net/?a.i2p" ++ CRLF ++ lit "Cookie: k" ++ CRLF ++ CRLF.
Definition head2 : head := mkHead (Some (lit "POST")) (Some (lit "/"))
  [(lit "Host", lit "www.a.i2p"); (lit "User-Agent", lit "x"); (lit "Accept-Language", lit "fi");
   (lit "Referer", lit "http://clear.net/?a.i2p"); (lit "Cookie", lit "k")].
Lemma laws2 : httparse_laws (knows req2 head2).
Proof.
  apply knows_laws.
  - repeat (constructor; [split; [apply token_lit; [reflexivity|discriminate]|apply line_lit; reflexivity]|]). constructor.
  - intros p E. injection E as <-. apply (line_lit "/"). reflexivity.
Qed.
Example C118_case : serve (knows req2 head2) no_url all_utf8 [RData req2] (COk [1]) =
  [HConnect (lit "a.i2p");
   HToRemote (lit "POST / HTTP/1.1" ++ CRLF ++ lit "Host: www.a.i2p" ++ CRLF ++ lit "User-Agent: MYOB/6.66 (AN/ON)" ++ CRLF
     ++ lit "Referer: http://clear.net/?a.i2p" ++ CRLF ++ lit "Cookie: k" ++ CRLF ++ CRLF);
   HToClient [1]].
Proof. vm_compute. reflexivity. Qed.

(** A Referer is passed on when the host is anywhere in it, so a destination can be told of a page
    elsewhere: the Referer is not a page of the host. *)
Theorem C118_referer_refuted : exists httparse rs q l hs body v,
  httparse_laws httparse /\ told httparse no_url all_utf8 rs (COk []) q /\ is_request q l hs body
  /\ In (lit "Referer", v) hs /\ In (HConnect (lit "a.i2p")) (serve httparse no_url all_utf8 rs (COk []))
  /\ forall scheme path, ~ In 47 scheme -> v <> scheme ++ lit "//" ++ lit "a.i2p" ++ path.
Proof.
  set (hs2 := [(lit "Host", lit "www.a.i2p"); (lit "User-Agent", lit "MYOB/6.66 (AN/ON)"); (lit "Referer", lit "http://clear.net/?a.i2p"); (lit "Cookie", lit "k")]).
  set (q := lit "POST / HTTP/1.1" ++ CRLF ++ flat_map (fun h => put_header (fst h) (snd h)) hs2 ++ CRLF ++ []).
  assert (Sv : serve (knows req2 head2) no_url all_utf8 [RData req2] (COk []) = [HConnect (lit "a.i2p"); HToRemote q; HToClient []]) by (vm_compute; reflexivity).
  exists (knows req2 head2), [RData req2], q, (lit "POST / HTTP/1.1"), hs2, [], (lit "http://clear.net/?a.i2p").
  split; [apply laws2|]. split; [unfold told; rewrite Sv; right; left; reflexivity|]. split.
  { exists (flat_map (fun h => put_header (fst h) (snd h)) hs2 ++ CRLF ++ []). split; [reflexivity|]. split; [apply line_lit; reflexivity|].
    apply put_lines. repeat (constructor; [split; [apply token_lit; [reflexivity|discriminate]|apply line_lit; reflexivity]|]). constructor. }
  split; [right; right; left; reflexivity|]. split; [rewrite Sv; left; reflexivity|].
  intros scheme path Ns E.
  assert (Sc : scheme = lit "http:").
  { clear -Ns E.
    assert (X : forall (a b x y : list N), ~ In 47 a -> ~ In 47 b -> a ++ 47 :: x = b ++ 47 :: y -> a = b).
    { induction a as [|c a IH]; intros [|d b] x y A B Q; cbn in Q; [reflexivity| | |].
      - injection Q as <- _. exfalso. apply B. left. reflexivity.
      - injection Q as -> _. exfalso. apply A. left. reflexivity.
      - injection Q as -> Q. f_equal. apply (IH b x y); [intros Z; apply A; right; exact Z|intros Z; apply B; right; exact Z|exact Q]. }
    symmetry. apply (X (lit "http:") scheme (lit "/clear.net/?a.i2p") (47 :: (lit "a.i2p" ++ path))); [|exact Ns|exact E].
    intros Z. apply (in_map (fun c => c =? 47)) in Z. cbn in Z. repeat (destruct Z as [Z|Z]; [discriminate|]). destruct Z. }
  subst scheme. apply (f_equal (skipn 7)) in E. discriminate.
Qed.
Print Assumptions C118_referer_refuted.

(** * C119: what becomes of a body *)
(** How the bytes of a browser are cut into reads makes no difference to where the request goes and
    to its head. *)
Theorem C119_any_pieces : forall httparse url_parse utf8 rs rs' host q l hs body,
  httparse_laws httparse -> url_laws url_parse -> only_data rs' -> sent rs' = sent rs ->
  read_request httparse url_parse utf8 [] rs = RReady host q -> is_request q l hs body ->
  exists q' body', read_request httparse url_parse utf8 [] rs' = RReady host q' /\ is_request q' l hs body'.
Proof.
  intros httparse url_parse utf8 rs rs' host q l hs body HL UL D S R Q.
  destruct (read_ready _ _ _ _ _ _ _ R) as (used & A & L & (k & U) & Lu). cbn [app length] in *.
  destruct (accept_inv _ _ _ _ _ _ A) as (h & n & m & v & p & E & M & GP & F & V & Hh & W & P & Eq).
  destruct (read_chunks httparse url_parse utf8 HL (sent rs) used h n E (ex_intro _ k U) ltac:(lia) rs' [] D ltac:(cbn; lia) S) as (used' & E' & _ & R').
  assert (A' : parse_request httparse url_parse utf8 used' = PAccept host (m ++ lit " " ++ out_path url_parse p ++ lit " " ++ lit "HTTP/1.1" ++ CRLF
           ++ flat_map (sanitize utf8 host) (h_headers h) ++ CRLF ++ skipn n used')).
  { unfold parse_request. rewrite E', M. assert (B : beq m (lit "GET") || beq m (lit "POST") = true) by (apply orb_true_iff; destruct GP as [->| ->]; [left|right]; apply beq_refl).
    rewrite B, F, V. cbv zeta. rewrite <- Hh, W, P. reflexivity. }
  rewrite A' in R'. eexists. eexists. split; [exact R'|].
  destruct (accept_request _ _ _ _ _ _ HL UL A) as (h1 & n1 & m1 & p1 & E1 & M1 & _ & P1 & Q1).
  rewrite E1 in E. injection E as -> ->. rewrite M1 in M. injection M as ->. rewrite P1 in P. injection P as ->.
  destruct (is_request_unique _ _ _ _ _ _ _ Q Q1) as (-> & -> & _).
  destruct (accept_request _ _ _ _ _ _ HL UL A') as (h2 & n2 & m2 & p2 & E2 & M2 & _ & P2 & Q2).
  rewrite E2 in E'. injection E' as -> ->. rewrite M2 in M1. injection M1 as ->. rewrite P2 in P1. injection P1 as ->. exact Q2.
Qed.
Print Assumptions C119_any_pieces.

(** The body sent on is the beginning of what the browser sent after the head.  Missing: that it is
    all of it, see the next theorem. *)
Theorem C119_body_prefix_partial : forall httparse url_parse utf8 rs c q l hs body,
  httparse_laws httparse -> url_laws url_parse -> told httparse url_parse utf8 rs c q -> is_request q l hs body ->
  exists h n rest, httparse (sent rs) = PComplete h n /\ skipn n (sent rs) = body ++ rest.
Proof.
  intros httparse url_parse utf8 rs c q l hs body HL UL T Q. destruct (told_inv _ _ _ _ _ _ T) as (host & used & k & A & U & _).
  destruct (accept_request _ _ _ _ _ _ HL UL A) as (h & n & m & p & E & _ & _ & _ & R).
  destruct (is_request_unique _ _ _ _ _ _ _ Q R) as (_ & _ & ->).
  assert (S : sent rs = used ++ skipn k (sent rs)) by (rewrite U; symmetry; apply firstn_skipn).
  destruct (hp_stays _ HL _ _ _ (skipn k (sent rs)) E) as [Ln E'].
  exists h, n, (skipn k (sent rs)). rewrite S at 1 2. split; [exact E'|]. rewrite skipn_app. replace (n - length used)%nat with 0%nat by lia. reflexivity.
Qed.
Print Assumptions C119_body_prefix_partial.

(** Only what arrives in the same read as the end of the head is sent on: for every request that is
    accepted and every body, a body that comes in a later read is lost although the request is
    sent, while the same bytes in one read arrive. *)
Theorem C119_body_refuted : forall httparse url_parse utf8 b h host q x body,
  httparse_laws httparse -> url_laws url_parse ->
  httparse b = PComplete h (length b) -> parse_request httparse url_parse utf8 b = PAccept host q -> b <> [] ->
  (length b + length (x :: body) <= N.to_nat 8192)%nat ->
  exists l hs q2, told httparse url_parse utf8 [RData b; RData (x :: body)] (COk []) q /\ is_request q l hs []
    /\ told httparse url_parse utf8 [RData (b ++ x :: body)] (COk []) q2 /\ is_request q2 l hs (x :: body).
Proof.
  intros httparse url_parse utf8 b h host q x body HL UL E A NE L.
  assert (Full : forall z : list N, (length z <= BUF)%nat -> firstn (BUF - length (@nil N)) z = z) by (intros z Lz; apply firstn_all2; cbn [length]; lia).
  fold BUF in L.
  assert (R1 : read_request httparse url_parse utf8 [] [RData b; RData (x :: body)] = RReady host q).
  { cbn [read_request]. rewrite Full by lia. destruct b as [|y b]; [congruence|]. cbn [app]. cbv zeta. rewrite E, A. reflexivity. }
  assert (D : only_data [RData (b ++ x :: body)]).
  { constructor; [|constructor]. destruct b as [|y b]; [congruence|]. exists y, (b ++ x :: body). reflexivity. }
  destruct (accept_request _ _ _ _ _ _ HL UL A) as (h1 & n1 & m & p & E1 & M & GP & P & Q).
  rewrite E in E1. injection E1 as <- <-. rewrite skipn_all in Q.
  destruct (C119_any_pieces httparse url_parse utf8 [RData b; RData (x :: body)] [RData (b ++ x :: body)] host q _ _ _ HL UL D
    ltac:(cbn [sent flat_map]; rewrite !app_nil_r; reflexivity) R1 Q) as (q2 & body2 & R2 & Q2).
  eexists. eexists. exists q2. split; [unfold told, serve; rewrite R1; right; left; reflexivity|]. split; [exact Q|].
  split; [unfold told, serve; rewrite R2; right; left; reflexivity|].
  assert (B2 : body2 = x :: body); [|rewrite <- B2; exact Q2].
  destruct (hp_stays _ HL _ _ _ (x :: body) E) as [_ E2].
  cbn [read_request] in R2. rewrite Full in R2 by (rewrite app_length; lia).
  destruct (b ++ x :: body) as [|y z] eqn:Eb; [destruct b; discriminate|]. rewrite <- Eb in *. cbn [app] in R2. cbv zeta in R2. rewrite E2 in R2.
  destruct (parse_request httparse url_parse utf8 (b ++ x :: body)) as [e|h2 q2'|] eqn:A2; try discriminate.
  assert (Eqq : q2' = q2) by (exact (f_equal (fun r => match r with RReady _ a => a | _ => [] end) R2)). subst q2'.
  destruct (accept_request _ _ _ _ _ _ HL UL A2) as (h3 & n3 & m3 & p3 & E3 & _ & _ & _ & Q3).
  rewrite E2 in E3. injection E3 as <- <-. destruct (is_request_unique _ _ _ _ _ _ _ Q2 Q3) as (_ & _ & ->).
  rewrite skipn_app, skipn_all, Nat.sub_diag. reflexivity.
Qed.
Print Assumptions C119_body_refuted.

Example C119_case :
  let out rs := match serve (knows req2 head2) no_url all_utf8 rs (COk [1]) with [_; HToRemote q; _] => skipn (length q - 4) q | _ => [] end in
  out [RData (req2 ++ [7; 8])] = [13; 10; 7; 8] /\ out [RData req2; RData [7; 8]] = [13; 10; 13; 10]
  /\ out [RData (firstn 20 req2); RData (skipn 20 req2 ++ [7]); RData [8]] = [10; 13; 10; 7].
Proof. vm_compute. repeat split. Qed.

(** * C120: failures *)
Lemma dec_from_value fuel : forall n, n < 2 ^ N.of_nat fuel -> digits (dec_from (S fuel) n) /\ decimal (dec_from (S fuel) n) = n.
Proof.
  assert (Step : forall a d, decimal (a ++ [48 + d]) = 10 * decimal a + d).
  { intros a d. unfold decimal. rewrite fold_left_app. cbn [fold_left]. change (letter "0") with 48. lia. }
  assert (Dg : forall a n, (a = [] \/ digits a) -> digits (a ++ [48 + n mod 10])).
  { intros a n H. split; [destruct a; discriminate|]. apply Forall_app. split.
    - destruct H as [->|[_ H]]; [constructor|exact H].
    - constructor; [|constructor]. change (letter "0") with 48. change (letter "9") with 57. pose proof (N.mod_lt n 10 ltac:(lia)). lia. }
  induction fuel as [|f IH]; intros n L.
  - assert (n = 0) by (cbn in L; lia). subst n. cbn. split; [|reflexivity]. apply (Dg [] 0). left. reflexivity.
  - remember (S f) as sf. cbn [dec_from]. destruct (N.ltb_spec n 10) as [Lt|Ge].
    + split; [apply Dg; left; reflexivity|]. rewrite Step. cbn. apply N.mod_small. exact Lt.
    + subst sf. destruct (IH (n / 10)) as [A B].
      * replace (N.of_nat (S f)) with (N.succ (N.of_nat f)) in L by lia. rewrite N.pow_succ_r' in L.
        apply N.div_lt_upper_bound; lia.
      * split; [apply Dg; right; exact A|]. rewrite Step, B. symmetry. apply N.div_mod. lia.
Qed.
Lemma dec_value n : digits (dec n) /\ decimal (dec n) = n.
Proof.
  unfold dec. apply dec_from_value. replace (N.of_nat (S (N.to_nat (N.log2 n)))) with (N.succ (N.log2 n)) by lia.
  destruct (N.eq_dec n 0) as [->|Z]; [reflexivity|]. apply N.log2_spec. lia.
Qed.

(** The answer that a browser gets is a response with this status line whose Content-Length is the
    length of the page that follows. *)
Definition is_page (b : list N) (st error : list N) : Prop :=
  exists d body a z, is_request b (lit "HTTP/1.1 " ++ st) [(lit "Content-Type", lit "text/html; charset=UTF-8"); (lit "Content-Length", d)] body
    /\ digits d /\ decimal d = N.of_nat (length body) /\ body = a ++ error ++ z.

Lemma response_page s e : is_page (response s e) (status_text s) e.
Proof.
  destruct (dec_value (N.of_nat (length (page s e)))) as [D V].
  exists (dec (N.of_nat (length (page s e)))), (page s e),
    (lit "<!DOCTYPE html><html><head><title>" ++ status_text s ++ lit "</title></head><body><h1>" ++ status_text s ++ lit "</h1><p>"), (lit "</p></body></html>").
  split; [|split; [exact D|split; [exact V|]]].
  - assert (O : one_line (dec (N.of_nat (length (page s e))))).
    { destruct D as [_ D]. rewrite Forall_forall in D. change (letter "0") with 48 in D. change (letter "9") with 57 in D.
      split; intros X; apply D in X; lia. }
    exists (flat_map (fun h => put_header (fst h) (snd h)) [(lit "Content-Type", lit "text/html; charset=UTF-8"); (lit "Content-Length", dec (N.of_nat (length (page s e))))] ++ CRLF ++ page s e).
    split; [|split].
    + unfold response, put_header. cbn [flat_map fst snd]. rewrite app_nil_r. rewrite <- !app_assoc. reflexivity.
    + destruct s; apply one_line_app; apply line_lit; reflexivity.
    + apply put_lines. constructor; [split; [apply token_lit; [reflexivity|discriminate]|apply line_lit; reflexivity]|].
      constructor; [split; [apply token_lit; [reflexivity|discriminate]|exact O]|constructor].
  - unfold page. rewrite <- !app_assoc. reflexivity.
Qed.

(** A request that is refused is answered with a page that says so, and nothing else happens; so is
    one whose destination cannot be reached. *)
Theorem C120_failures_answered : forall httparse url_parse utf8 rs c,
  (forall e, read_request httparse url_parse utf8 [] rs = RFailed e -> e <> EIo ->
     exists b msg, serve httparse url_parse utf8 rs c = [HToClient b] /\ is_page b (lit "400 Bad Request") msg
       /\ msg = (if match e with EInvalidHost => true | _ => false end then lit "Only .i2p and .b32.i2p hosts are supported" else lit "Malformed request"))
  /\ (forall host q, read_request httparse url_parse utf8 [] rs = RReady host q -> c = CFail ->
     exists b, serve httparse url_parse utf8 rs c = [HConnect host; HToClient b]
       /\ is_page b (lit "500 Internal Server Error") (lit "Failed to establish connection to " ++ host)).
Proof.
  intros httparse url_parse utf8 rs c. split.
  - intros e R NE. unfold serve. rewrite R. destruct e; [congruence| | | |];
      (eexists; eexists; split; [reflexivity|]; split; [apply (response_page BadRequest)|reflexivity]).
  - intros host q R ->. unfold serve. rewrite R. eexists. split; [reflexivity|]. apply (response_page InternalServerError).
Qed.
Print Assumptions C120_failures_answered.

(** The parser is never asked to go on with half a request: no browser makes the task panic. *)
Theorem C120_no_panic : forall httparse url_parse utf8 rs, read_request httparse url_parse utf8 [] rs <> RPanicked.
Proof.
  intros httparse url_parse utf8 rs. generalize (@nil N) as buf. induction rs as [|r rs IH]; intros buf; [discriminate|]. cbn [read_request].
  destruct r as [b| | |]; try discriminate. destruct (firstn (BUF - length buf) b) as [|x g]; [discriminate|]. cbv zeta.
  destruct (httparse (buf ++ x :: g)) as [| |h n] eqn:E; [discriminate|destruct (skipn (BUF - length buf) b); [apply IH|discriminate]|].
  unfold parse_request. rewrite E.
  destruct (h_method h); [|discriminate]. destruct (beq _ _ || _); [|discriminate]. destruct (find_host _); [|discriminate].
  destruct (utf8 _); [|discriminate]. cbv zeta. destruct (ends_with _ _); [|discriminate]. destruct (h_path h); discriminate.
Qed.
Print Assumptions C120_no_panic.

(** A head that does not fit into 8192 bytes is not answered at all: the connection is dropped. *)
Theorem C120_long_head_refuted : forall httparse url_parse utf8 rs c,
  only_data rs -> (N.to_nat 8192 < length (sent rs))%nat -> (forall k, (k <= N.to_nat 8192)%nat -> httparse (firstn k (sent rs)) = PPartial) ->
  serve httparse url_parse utf8 rs c = [].
Proof.
  intros httparse url_parse utf8 rs c D L H. fold BUF in L, H.
  assert (G : forall rs buf, only_data rs -> (length buf <= BUF)%nat -> (BUF < length (buf ++ sent rs))%nat ->
    (forall k, (k <= BUF)%nat -> httparse (firstn k (buf ++ sent rs)) = PPartial) -> read_request httparse url_parse utf8 buf rs = RFailed EIo).
  { clear. intros rs. induction rs as [|r rs IH]; intros buf D Lb L H.
    - cbn [sent flat_map] in L. rewrite app_nil_r in L. lia.
    - inversion D as [|? ? (x & b & ->) D']; subst r. cbn [read_request]. destruct (firstn (BUF - length buf) (x :: b)) as [|y g] eqn:Eg; [reflexivity|].
      cbv zeta. rewrite <- Eg. assert (Lg : length (firstn (BUF - length buf) (x :: b)) = Nat.min (BUF - length buf) (length (x :: b))) by apply firstn_length.
      assert (P : httparse (buf ++ firstn (BUF - length buf) (x :: b)) = PPartial).
      { assert (Pre : buf ++ firstn (BUF - length buf) (x :: b) = firstn (length buf + Nat.min (BUF - length buf) (length (x :: b))) (buf ++ sent (RData (x :: b) :: rs))).
        { rewrite firstn_app_2. f_equal. cbn [sent flat_map]. rewrite firstn_app.
          replace (Nat.min (BUF - length buf) (length (x :: b)) - length (x :: b))%nat with 0%nat by lia. rewrite firstn_O, app_nil_r.
          rewrite <- (firstn_all (x :: b)) at 1. rewrite firstn_firstn. reflexivity. }
        rewrite Pre. apply H. lia. }
      rewrite P. destruct (Nat.le_gt_cases (length (x :: b)) (BUF - length buf)) as [Fits|Over].
      + rewrite skipn_all2 by exact Fits. rewrite firstn_all2 by exact Fits. assert (Ap : (buf ++ x :: b) ++ sent rs = buf ++ sent (RData (x :: b) :: rs)) by (rewrite <- app_assoc; reflexivity).
        apply IH; [exact D'|rewrite app_length; lia|rewrite Ap; exact L|rewrite Ap; exact H].
      + destruct (skipn (BUF - length buf) (x :: b)) as [|z0 zs] eqn:Sk; [|reflexivity].
        exfalso. apply (f_equal (@length _)) in Sk. rewrite skipn_length in Sk. cbn [length] in Sk, Over. lia. }
  unfold serve. rewrite (G rs [] D ltac:(cbn [length]; lia) ltac:(exact L) ltac:(exact H)). reflexivity.
Qed.
Print Assumptions C120_long_head_refuted.

(** The host is written into the page as it is: markup in a Host header becomes markup of the page. *)
Definition req3 : list N := lit "GET / HTTP/1.1" ++ CRLF ++ lit "Host: <script>x()</script>.i2p" ++ CRLF ++ CRLF.
Definition head3 : head := mkHead (Some (lit "GET")) (Some (lit "/")) [(lit "Host", lit "<script>x()</script>.i2p")].
Theorem C120_escape_refuted : exists httparse rs host b a z,
  httparse_laws httparse /\ serve httparse no_url all_utf8 rs CFail = [HConnect host; HToClient b]
  /\ host = lit "<script>x()</script>.i2p" /\ b = a ++ lit "<script>x()</script>" ++ z.
Proof.
  exists (knows req3 head3), [RData req3], (lit "<script>x()</script>.i2p"),
    (response InternalServerError (lit "Failed to establish connection to " ++ lit "<script>x()</script>.i2p")).
  exists (lit "HTTP/1.1 500 Internal Server Error" ++ CRLF ++ lit "Content-Type: text/html; charset=UTF-8" ++ CRLF ++ lit "Content-Length: 193" ++ CRLF ++ CRLF
      ++ lit "<!DOCTYPE html><html><head><title>500 Internal Server Error</title></head><body><h1>500 Internal Server Error</h1><p>Failed to establish connection to "),
    (lit ".i2p</p></body></html>").
  split.
  { apply knows_laws.
    - constructor; [|constructor]. split; [apply token_lit; [reflexivity|discriminate]|apply line_lit; reflexivity].
    - intros p E. injection E as <-. apply (line_lit "/"). reflexivity. }
  split; [|split; [reflexivity|vm_compute; reflexivity]].
  assert (R : read_request (knows req3 head3) no_url all_utf8 [] [RData req3] = RReady (lit "<script>x()</script>.i2p") req3) by (vm_compute; reflexivity).
  unfold serve. rewrite R. reflexivity.
Qed.
Print Assumptions C120_escape_refuted.

(** Two refused requests, one that is cut short, and one that is too long. *)
Definition req4 : list N := lit "GET / HTTP/1.1" ++ CRLF ++ lit "Host: clear.net" ++ CRLF ++ CRLF.
Definition head4 : head := mkHead (Some (lit "GET")) (Some (lit "/")) [(lit "Host", lit "clear.net")].
Example C117_case : serve (knows req4 head4) no_url all_utf8 [RData (firstn 9 req4); RData (skipn 9 req4)] CFail
  = [HToClient (response BadRequest (lit "Only .i2p and .b32.i2p hosts are supported"))]
  /\ serve (knows req2 head2) no_url all_utf8 [RData (firstn 9 req2); RData (skipn 9 req2)] CFail
     = [HConnect (lit "a.i2p"); HToClient (response InternalServerError (lit "Failed to establish connection to a.i2p"))].
Proof. vm_compute. split; reflexivity. Qed.
Example C120_case :
  read_request (knows req4 head4) no_url all_utf8 [] [RData req4] = RFailed EInvalidHost
  /\ read_request (knows req4 head4) no_url all_utf8 [] [RData (firstn 9 req4); RData [0]] = RFailed EMalformed
  /\ serve (knows req4 head4) no_url all_utf8 [RData (firstn 9 req4); RTimeout] CFail = []
  /\ serve (knows req4 head4) no_url all_utf8 [RData (firstn 9 req4); REof] CFail = []
  /\ serve (fun b => PPartial) no_url all_utf8 [RData (repeat 65 (N.to_nat 8193))] CFail = [].
Proof. vm_compute. repeat split. Qed.
