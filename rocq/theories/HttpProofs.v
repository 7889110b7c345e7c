(** Proofs about the HTTP proxy. *)
From Coq Require Import Ascii String.
From Coq Require Import List NArith PeanoNat Bool Lia.
From Verif Require Import ListUtil Bytes SamModel HttpModel HttpSpec.
Import ListNotations.
Local Open Scope list_scope.
Open Scope N_scope.

Lemma starts_iff p b : starts_with p b = true <-> exists r, b = p ++ r.
Proof.
  revert b. induction p as [|x p IH]; intros b; cbn.
  - split; [intros _; exists b; reflexivity|reflexivity].
  - destruct b as [|y b].
    + split; [discriminate|]. intros [r E]. discriminate.
    + rewrite andb_true_iff, N.eqb_eq, IH. split.
      * intros [-> [r ->]]. exists r. reflexivity.
      * intros [r E]. injection E as -> ->. split; [reflexivity|]. exists r. reflexivity.
Qed.
Lemma ends_iff s b : ends_with s b = true <-> exists r, b = r ++ s.
Proof.
  unfold ends_with. rewrite starts_iff. split.
  - intros [r E]. exists (rev r). rewrite <- (rev_involutive b), E, rev_app_distr, rev_involutive. reflexivity.
  - intros [r ->]. exists (rev r). apply rev_app_distr.
Qed.
Lemma contains_iff p b : contains p b = true <-> exists a r, b = a ++ p ++ r.
Proof.
  induction b as [|x b IH]; cbn [contains].
  - rewrite orb_false_r, starts_iff. split.
    + intros [r E]. exists [], r. exact E.
    + intros (a & r & E). destruct a; [|discriminate]. exists r. exact E.
  - rewrite orb_true_iff, starts_iff, IH. split.
    + intros [[r E]|(a & r & E)]; [exists [], r; exact E|]. exists (x :: a), r. rewrite E. reflexivity.
    + intros (a & r & E). destruct a as [|y a]; [left; exists r; exact E|]. injection E as _ E. right. exists a, r. exact E.
Qed.

(** ** A request can be read in one way only *)
Lemma cr_split (a b x y : list N) : ~ In 13 a -> ~ In 13 b -> a ++ 13 :: x = b ++ 13 :: y -> a = b /\ x = y.
Proof.
  revert b. induction a as [|c a IH]; intros [|d b] A B E; cbn in E.
  - injection E as ->. auto.
  - injection E as <- _. exfalso. apply B. left. reflexivity.
  - injection E as -> _. exfalso. apply A. left. reflexivity.
  - injection E as -> E. destruct (IH b) as [-> ->]; auto; intros X; [apply A|apply B]; right; exact X.
Qed.
Lemma colon_split (a b x y : list N) : ~ In 58 a -> ~ In 58 b -> a ++ 58 :: x = b ++ 58 :: y -> a = b /\ x = y.
Proof.
  revert b. induction a as [|c a IH]; intros [|d b] A B E; cbn in E.
  - injection E as ->. auto.
  - injection E as <- _. exfalso. apply B. left. reflexivity.
  - injection E as -> _. exfalso. apply A. left. reflexivity.
  - injection E as -> E. destruct (IH b) as [-> ->]; auto; intros X; [apply A|apply B]; right; exact X.
Qed.

Lemma header_lines_unique b hs body : header_lines b hs body -> forall hs' body', header_lines b hs' body' -> hs = hs' /\ body = body'.
Proof.
  induction 1 as [body|n v rest hs body T V H IH]; intros hs' body' H'; remember (_ ++ _) as b0 eqn:E in H'.
  - destruct H' as [body'|n' v' rest' hs' body' T' V' H']; cbn in E.
    + injection E as ->. auto.
    + exfalso. destruct T' as (N' & [C _] & _). destruct n' as [|x n']; [congruence|]. injection E as -> _. apply C. left. reflexivity.
  - destruct H' as [body'|n' v' rest' hs' body' T' V' H']; cbn in E.
    + exfalso. destruct T as (N' & [C _] & _). destruct n as [|x n]; [congruence|]. injection E as <- _. apply C. left. reflexivity.
    + destruct T as (_ & _ & C). destruct T' as (_ & _ & C'). apply colon_split in E as [<- E]; [|assumption|assumption].
      injection E as E. apply cr_split in E as [<- E]; [|apply V'|apply V]. injection E as ->.
      destruct (IH hs' body' H') as [-> ->]. auto.
Qed.
Lemma is_request_unique b l hs body l' hs' body' : is_request b l hs body -> is_request b l' hs' body' ->
  l = l' /\ hs = hs' /\ body = body'.
Proof.
  intros (r & E & L & H) (r' & E' & L' & H'). rewrite E in E'. apply cr_split in E' as [-> E']; [|apply L|apply L'].
  injection E' as ->. destruct (header_lines_unique _ _ _ H _ _ H') as [-> ->]. auto.
Qed.

Lemma prefixes (a b t : list N) j k : a = firstn j t -> b = firstn k t -> (exists c, b = a ++ c) \/ (exists c, a = b ++ c).
Proof.
  intros -> ->. destruct (Nat.le_gt_cases j k) as [L|L].
  - left. exists (skipn j (firstn k t)). rewrite <- (firstn_skipn j (firstn k t)) at 1. rewrite firstn_firstn, Nat.min_l by lia. reflexivity.
  - right. exists (skipn k (firstn j t)). rewrite <- (firstn_skipn k (firstn j t)) at 1. rewrite firstn_firstn, Nat.min_l by lia. reflexivity.
Qed.

(** ** What is written out *)
Section Put.
Variable httparse : list N -> presult.
Variable url_parse : list N -> option url.
Variable utf8 : list N -> bool.

(** What becomes of a header, as a header. *)
Definition clean_header (host : list N) (hd : list N * list N) : list (list N * list N) :=
  let n := lower (fst hd) in
  let v := snd hd in
  if beq n (lit "user-agent") then [(lit "User-Agent", lit "MYOB/6.66 (AN/ON)")]
  else if starts_with (lit "accept") n then
    if beq n (lit "accept-encoding") then [(lit "Accept-Encoding", v)] else []
  else if beq n (lit "connection") then
    if utf8 v && beq (lower v) (lit "upgrade") then [(lit "Connection", lit "upgrade")] else [(lit "Connection", lit "close")]
  else if beq n (lit "referer") then if utf8 v && contains host v then [(lit "Referer", v)] else []
  else if existsb (fun p => starts_with p n) ILLEGAL then []
  else [hd].

Lemma sanitize_clean host hd : sanitize utf8 host hd = flat_map (fun h => put_header (fst h) (snd h)) (clean_header host hd).
Proof.
  unfold sanitize, clean_header. cbv zeta.
  repeat match goal with |- context [if ?c then _ else _] => destruct c end; cbn [flat_map fst snd]; rewrite ?app_nil_r; reflexivity.
Qed.

Definition good_header (hd : list N * list N) : Prop := token (fst hd) /\ one_line (snd hd).

Lemma token_lit s : forallb (fun c => negb (c =? 13) && negb (c =? 10) && negb (c =? 58)) (lit s) = true -> lit s <> [] -> token (lit s).
Proof.
  intros F NE. rewrite forallb_forall in F. repeat split; [exact NE| | |]; intros X; specialize (F _ X); discriminate.
Qed.
Lemma line_lit s : forallb (fun c => negb (c =? 13) && negb (c =? 10)) (lit s) = true -> one_line (lit s).
Proof. intros F. rewrite forallb_forall in F. split; intros X; specialize (F _ X); discriminate. Qed.

Lemma clean_good host hd : good_header hd -> Forall good_header (clean_header host hd).
Proof.
  intros [T V]. unfold clean_header. cbv zeta.
  assert (A : forall s v, token (lit s) -> one_line v -> Forall good_header [(lit s, v)]).
  { intros s v Ts Vs. constructor; [split; assumption|constructor]. }
  repeat match goal with |- context [if ?c then _ else _] => destruct c end;
    first [ exact (Forall_nil _)
          | apply A; [apply token_lit; [reflexivity|discriminate]|first [exact V|apply line_lit; reflexivity]]
          | constructor; [split; assumption|constructor] ].
Qed.

Lemma put_lines hs body : Forall good_header hs ->
  header_lines (flat_map (fun h => put_header (fst h) (snd h)) hs ++ CRLF ++ body) hs body.
Proof.
  induction 1 as [|[n v] hs [T V] F IH]; cbn [flat_map]; [constructor|].
  unfold put_header at 1. cbn [fst snd] in *. rewrite <- !app_assoc. apply (HLine n v); assumption.
Qed.

Lemma sanitized_lines host hs body : Forall good_header hs ->
  header_lines (flat_map (sanitize utf8 host) hs ++ CRLF ++ body) (flat_map (clean_header host) hs) body.
Proof.
  intros F. assert (E : flat_map (sanitize utf8 host) hs = flat_map (fun h => put_header (fst h) (snd h)) (flat_map (clean_header host) hs)).
  { clear F. induction hs as [|hd hs IH]; [reflexivity|]. cbn [flat_map]. rewrite sanitize_clean, IH, flat_map_app. reflexivity. }
  rewrite E. apply put_lines. clear E. induction F as [|hd hs G F IH]; [constructor|]. cbn [flat_map]. apply Forall_app.
  split; [apply clean_good; exact G|exact IH].
Qed.

Lemma one_line_app a b : one_line a -> one_line b -> one_line (a ++ b).
Proof. intros [A B] [C D]. split; intros X; apply in_app_or in X as [X|X]; auto. Qed.

(** An accepted request, taken apart. *)
Lemma accept_inv req host q : parse_request httparse url_parse utf8 req = PAccept host q ->
  exists h n m v p, httparse req = PComplete h n /\ h_method h = Some m /\ (m = lit "GET" \/ m = lit "POST")
    /\ find_host (h_headers h) = Some v /\ utf8 v = true /\ host = strip_prefix (lit "www.") v /\ ends_with (lit ".i2p") host = true
    /\ h_path h = Some p
    /\ q = m ++ lit " " ++ out_path url_parse p ++ lit " " ++ lit "HTTP/1.1" ++ CRLF
           ++ flat_map (sanitize utf8 host) (h_headers h) ++ CRLF ++ skipn n req.
Proof.
  unfold parse_request. destruct (httparse req) as [| |h n] eqn:E; try discriminate.
  destruct (h_method h) as [m|] eqn:M; [|discriminate].
  destruct (beq m (lit "GET") || beq m (lit "POST")) eqn:B; [|discriminate].
  destruct (find_host (h_headers h)) as [v|] eqn:F; [|discriminate].
  destruct (utf8 v) eqn:U; [|discriminate]. cbv zeta.
  destruct (ends_with (lit ".i2p") (strip_prefix (lit "www.") v)) eqn:W; [|discriminate].
  destruct (h_path h) as [p|] eqn:P; [|discriminate].
  intros H. exists h, n, m, v, p.
  assert (H' : strip_prefix (lit "www.") v = host /\ m ++ lit " " ++ out_path url_parse p ++ lit " " ++ lit "HTTP/1.1" ++ CRLF
           ++ flat_map (sanitize utf8 (strip_prefix (lit "www.") v)) (h_headers h) ++ CRLF ++ skipn n req = q).
  { split; [exact (f_equal (fun x => match x with PAccept a _ => a | _ => [] end) H)|exact (f_equal (fun x => match x with PAccept _ a => a | _ => [] end) H)]. }
  clear H. destruct H' as [<- <-].
  split; [reflexivity|]. split; [exact M|]. split.
  - apply orb_true_iff in B as [B|B]; apply beq_eq in B; auto.
  - repeat split; auto.
Qed.

Lemma path_line p : url_laws url_parse -> one_line p -> one_line (out_path url_parse p).
Proof.
  intros UL P. unfold out_path. destruct (url_parse p) as [u|] eqn:E; [|exact P]. destruct (UL p u E P) as [A B].
  destruct (u_query u) as [qq|] eqn:Q; [|exact A]. apply one_line_app; [exact A|]. apply one_line_app; [apply line_lit; reflexivity|apply B; reflexivity].
Qed.

Lemma accept_request req host q : httparse_laws httparse -> url_laws url_parse ->
  parse_request httparse url_parse utf8 req = PAccept host q ->
  exists h n m p, httparse req = PComplete h n /\ h_method h = Some m /\ (m = lit "GET" \/ m = lit "POST") /\ h_path h = Some p
    /\ is_request q (m ++ lit " " ++ out_path url_parse p ++ lit " HTTP/1.1") (flat_map (clean_header host) (h_headers h)) (skipn n req).
Proof.
  intros HL UL A. destruct (accept_inv _ _ _ A) as (h & n & m & v & p & E & M & GP & F & U & Hh & W & P & Q).
  exists h, n, m, p. repeat split; auto.
  exists (flat_map (sanitize utf8 host) (h_headers h) ++ CRLF ++ skipn n req). split; [|split].
  - rewrite Q. rewrite <- !app_assoc. reflexivity.
  - apply one_line_app; [destruct GP as [->| ->]; apply line_lit; reflexivity|].
    apply one_line_app; [apply line_lit; reflexivity|]. apply one_line_app; [|apply line_lit; reflexivity].
    apply path_line; [exact UL|]. apply (hp_path _ HL _ _ _ _ E P).
  - apply sanitized_lines. apply (hp_headers _ HL _ _ _ E).
Qed.

(** ** Reading *)
Lemma read_ready rs : forall buf host q, read_request httparse url_parse utf8 buf rs = RReady host q ->
  exists used, parse_request httparse url_parse utf8 used = PAccept host q /\ (length used <= Nat.max BUF (length buf))%nat
    /\ (exists k, used = buf ++ firstn k (sent rs)) /\ (length buf < length used)%nat.
Proof.
  induction rs as [|r rs IH]; intros buf host q H; cbn [read_request] in H; [discriminate|].
  destruct r as [b| | |]; try discriminate.
  remember (firstn (BUF - length buf) b) as got eqn:Hg.
  assert (G : exists k, got = firstn k b /\ (k <= length b)%nat /\ (length buf + k <= Nat.max BUF (length buf))%nat).
  { exists (length got). split; [|rewrite Hg, firstn_length; lia].
    rewrite Hg, firstn_length. rewrite <- (firstn_all b) at 1. rewrite firstn_firstn. reflexivity. }
  destruct G as (k & G & Lk & Lm).
  assert (S1 : firstn k (sent (RData b :: rs)) = got) by (cbn [sent flat_map]; rewrite firstn_app, G; replace (k - length b)%nat with 0%nat by lia; cbn; apply app_nil_r).
  assert (Lg : length got = k) by (rewrite G, firstn_length; lia).
  assert (Lf : length got = Nat.min (BUF - length buf) (length b)) by (rewrite Hg; apply firstn_length).
  clear Hg. destruct got as [|x g]; [discriminate|]. cbv zeta in H. set (got := x :: g) in *. assert (Lp : (0 < length got)%nat) by (cbn; lia). clearbody got.
  destruct (httparse (buf ++ got)) as [| |h n] eqn:E; try discriminate.
  - destruct (skipn (BUF - length buf) b) as [|z0 zs] eqn:Sk; [|discriminate]. destruct (IH _ _ _ H) as (used & A & L & (j & U) & Lu). exists used. split; [exact A|]. rewrite app_length in L, Lu.
    split; [lia|]. split; [|lia].
    destruct (Nat.le_gt_cases (length b) k) as [Ge|Lt].
    + assert (Gb : got = b) by (rewrite G; apply firstn_all2; lia).
      exists (length b + j)%nat. cbn [sent flat_map]. rewrite firstn_app_2. rewrite U, <- app_assoc, Gb. reflexivity.
    + exfalso. apply (f_equal (@length _)) in Sk. rewrite skipn_length in Sk. cbn in Sk. lia.
  - destruct (parse_request httparse url_parse utf8 (buf ++ got)) as [e|h' q'|] eqn:P; try discriminate.
    assert (Hq : h' = host /\ q' = q) by (split; [exact (f_equal (fun x => match x with RReady a _ => a | _ => [] end) H)|exact (f_equal (fun x => match x with RReady _ a => a | _ => [] end) H)]).
    destruct Hq as [<- <-]. exists (buf ++ got). split; [exact P|]. rewrite app_length, Lg. split; [lia|]. split; [|lia].
    exists k. rewrite S1. reflexivity.
Qed.

(** What is read does not depend on how it is cut into pieces. *)
Lemma read_chunks (HL : httparse_laws httparse) total used h n : httparse used = PComplete h n ->
  (exists k, used = firstn k total) -> (length used <= BUF)%nat ->
  forall rs buf, only_data rs -> (length buf < length used)%nat -> buf ++ sent rs = total ->
  exists used', httparse used' = PComplete h n /\ (exists k, used' = firstn k total) /\
    read_request httparse url_parse utf8 buf rs
    = match parse_request httparse url_parse utf8 used' with PReject e => RFailed e | PAccept x q => RReady x q | PPanic => RPanicked end.
Proof.
  intros E [k U] L. induction rs as [|r rs IH]; intros buf D Lb T.
  - exfalso. cbn in T. rewrite app_nil_r in T. subst buf. apply (f_equal (@length _)) in U. rewrite firstn_length in U. lia.
  - inversion D as [|? ? (x & b & ->) D']; subst r. cbn [read_request].
    assert (Gk : exists i, firstn (BUF - length buf) (x :: b) = firstn (S i) (x :: b) /\ (S i <= length (x :: b))%nat
      /\ ((S i = length (x :: b))%nat \/ (length buf + S i = BUF)%nat)).
    { exists (Nat.pred (Nat.min (BUF - length buf) (length (x :: b)))). cbn [length].
      assert (Sx : S (Nat.pred (Nat.min (BUF - length buf) (S (length b)))) = Nat.min (BUF - length buf) (S (length b))) by lia.
      rewrite Sx. split; [|lia]. rewrite <- (firstn_all (x :: b)) at 1. rewrite firstn_firstn. reflexivity. }
    destruct Gk as (i & Gk & Li & Or). rewrite Gk. cbn [firstn]. cbv zeta. set (got := x :: firstn i b).
    assert (Eg : got = firstn (S i) (x :: b)) by reflexivity. assert (Lg : length got = S i) by (rewrite Eg, firstn_length; lia). clearbody got.
    assert (Pre : buf ++ got = firstn (length buf + S i) total).
    { rewrite <- T. rewrite firstn_app_2. f_equal. cbn [sent flat_map]. rewrite firstn_app. replace (S i - length (x :: b))%nat with 0%nat by lia.
      rewrite firstn_O, app_nil_r. exact Eg. }
    destruct (httparse (buf ++ got)) as [| |h' n'] eqn:P.
    + exfalso. destruct (prefixes (buf ++ got) used total _ _ Pre U) as [[c C]|[c C]].
      * rewrite C in E. rewrite (hp_error _ HL _ c P) in E. discriminate.
      * rewrite C in P. rewrite (proj2 (hp_stays _ HL _ _ _ c E)) in P. discriminate.
    + assert (Lt : (length (buf ++ got) < length used)%nat).
      { destruct (prefixes (buf ++ got) used total _ _ Pre U) as [[c C]|[c C]].
        - destruct c as [|y c]; [rewrite app_nil_r in C; congruence|]. rewrite C, (app_length (buf ++ got)). cbn. lia.
        - rewrite C in P. rewrite (proj2 (hp_stays _ HL _ _ _ c E)) in P. discriminate. }
      assert (Lt' := Lt). rewrite app_length in Lt'. assert (Or' : (S i = length (x :: b))%nat) by (destruct Or as [Or|Or]; lia).
      assert (Sk : skipn (BUF - length buf) (x :: b) = []) by (apply skipn_all2; apply (f_equal (@length _)) in Gk; rewrite !firstn_length in Gk; lia).
      rewrite Sk. apply IH; [exact D'|exact Lt|].
      rewrite Eg, firstn_all2 by lia. rewrite <- T, <- app_assoc. reflexivity.
    + exists (buf ++ got). assert (Same : PComplete h' n' = PComplete h n).
      { destruct (prefixes (buf ++ got) used total _ _ Pre U) as [[c C]|[c C]].
        - rewrite C in E. rewrite (proj2 (hp_stays _ HL _ _ _ c P)) in E. exact E.
        - rewrite C in P. rewrite (proj2 (hp_stays _ HL _ _ _ c E)) in P. symmetry. exact P. }
      split; [rewrite P; exact Same|]. split; [exists (length buf + S i)%nat; exact Pre|]. reflexivity.
Qed.
End Put.
