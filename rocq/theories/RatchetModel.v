(** Model of the end-to-end encryption of destinations,
    /repo/emissary-core/src/destination/session/{tag_set,session,context,inbound,outbound,mod}.rs.

    Hash, DH, Elligator2 and ChaCha20-Poly1305 are the fields of a record; what is assumed of
    them is stated in RatchetSpec.v.  Random private keys and message ids are arguments.
    Destination ids are the 32-byte hash read as a number.  Times are nanoseconds.
    Tracing, [zeroize] and [debug_assert!(false)] (release build) are left out. *)
From Coq Require Import List NArith Bool Arith String Ascii.
From Verif Require Import Bytes NMap PrimModel I2npModel GarlicModel.
Import ListNotations.
Open Scope N_scope.

Record rcrypt := {
  hmac : bytes -> bytes -> bytes;          (* crypto/hmac.rs:28-47: key, all updates in a row *)
  sha : bytes -> bytes;                    (* crypto/sha256.rs *)
  pubkey : bytes -> bytes;                 (* StaticPrivateKey::public *)
  dh : bytes -> bytes -> bytes;            (* StaticPrivateKey::diffie_hellman *)
  epub : bytes -> bytes;                   (* Randomized::mul_base_clamped(..).to_montgomery() *)
  represent : bytes -> N -> bytes;         (* Randomized::to_representative(key, tweak) *)
  unrepresent : bytes -> option bytes;     (* Randomized::from_representative(..).to_montgomery() *)
  aseal : bytes -> N -> bytes -> bytes -> bytes;        (* chachapoly.rs:142-154: key nonce ad *)
  aopen : bytes -> N -> bytes -> bytes -> option bytes  (* chachapoly.rs:161-173 *)
}.

(** A byte string literal *)
Definition str (s : string) : bytes := map N_of_ascii (list_ascii_of_string s).
Definition le_bytes (n : nat) (v : N) : bytes := rev (be_bytes n v).

(** error.rs [SessionError] as far as it is told apart; [ECrypto] stands for the cipher's. *)
Inductive serr := EMalformed | EInvalidKey | EInvalidState | EUnknownTag | ETerminated | ECrypto.
Inductive res (A : Type) := Ok (a : A) | Err (e : serr) | Panic.
Arguments Ok {A}. Arguments Err {A}. Arguments Panic {A}.

(** tag_set.rs:44, session/mod.rs:73-76, session.rs:55-67, outbound.rs:45 *)
Definition MAX_KEY_ID : N := 32767.
Definition NUM_TAGS : N := 4096.
Definition RATCHET_THRESHOLD : N := 20000.
Definition NUM_EXTRA_TAGS : N := 128.
Definition NSR_TAG_COUNT : N := 16.
Definition NS_PER_S : N := 1000000000.
Definition PENDING_MAX_AGE : N := 300 * NS_PER_S.
Definition NSR_MAX_AGE : N := 180 * NS_PER_S.
Definition PREV_TAG_MAX_AGE : N := 180 * NS_PER_S.
Definition ES_SEND_TIMEOUT : N := 480 * NS_PER_S.
Definition ES_RECV_TIMEOUT : N := 600 * NS_PER_S.

(** ** tag_set.rs *)

(** tag_set.rs:49-104 [KeyState] *)
Inductive key_state :=
| KUninit
| KAwaitRev (send recv : N) (priv : bytes)
| KAwaitConf (send recv : N) (priv pub : bytes)
| KActive (send recv : N) (priv pub : bytes)
| KPoisoned.

(** tag_set.rs:143-161 [KeyContext] (the unused [session_tag_key] is left out) *)
Record kctx := mkKC { kc_root : bytes; kc_data : bytes; kc_const : bytes; kc_sym : bytes }.

(** tag_set.rs:207-221 [TagSetEntry] *)
Record entry := mkEntry { e_key : bytes; e_tag : N; e_index : N; e_set : N }.

(** tag_set.rs:226-248 [TagSet] (the two unused fields are left out) *)
Record tagset := mkTS { ts_ctx : kctx; ts_state : key_state; ts_index : N; ts_id : N }.

(** tag_set.rs:165-203 [KeyContext::new] *)
Definition key_context (c : rcrypt) (root tag_set_key : bytes) : kctx :=
  let temp := hmac c root tag_set_key in
  let next_root := hmac c temp (str "KDFDHRatchetStep" ++ [1]) in
  let ratchet := hmac c temp (next_root ++ str "KDFDHRatchetStep" ++ [2]) in
  let temp := hmac c ratchet [] in
  let tag_key := hmac c temp (str "TagAndKeyGenKeys" ++ [1]) in
  let sym := hmac c temp (tag_key ++ str "TagAndKeyGenKeys" ++ [2]) in
  let temp := hmac c tag_key [] in
  let data := hmac c temp (str "STInitialization" ++ [1]) in
  let const := hmac c temp (data ++ str "STInitialization" ++ [2]) in
  mkKC next_root data const sym.

(** tag_set.rs:252-261 [TagSet::new] *)
Definition ts_new (c : rcrypt) (root tag_set_key : bytes) : tagset :=
  mkTS (key_context c root tag_set_key) KUninit 0 0.

(** tag_set.rs:275-313: the session tag ratchet and the symmetric key ratchet *)
Definition ratchet_once (c : rcrypt) (k : kctx) : kctx * (bytes * N) :=
  let temp := hmac c (kc_data k) (kc_const k) in
  let data := hmac c temp (str "SessionTagKeyGen" ++ [1]) in
  let tag := firstn 8 (hmac c temp (data ++ str "SessionTagKeyGen" ++ [2])) in
  let temp := hmac c (kc_sym k) [] in
  let sym := hmac c temp (str "SymmetricRatchet" ++ [1]) in
  let key := hmac c temp (sym ++ str "SymmetricRatchet" ++ [2]) in
  (mkKC (kc_root k) data (kc_const k) sym, (key, be_val (rev tag))).

(** tag_set.rs:266-321 [next_entry]; when [checked_add] fails nothing has changed. *)
Definition next_entry (c : rcrypt) (t : tagset) : tagset * option entry :=
  if ts_index t =? 65535 then (t, None)
  else
    let '(k, (key, tag)) := ratchet_once c (ts_ctx t) in
    (mkTS k (ts_state t) (ts_index t + 1) (ts_id t),
     Some (mkEntry key tag (ts_index t) (ts_id t))).

(** tag_set.rs:330-368 [reinitialize_tag_set]; the id is computed in [u16]. *)
Definition ts_reinit (c : rcrypt) (t : tagset) (priv pub : bytes) (send recv : N) : tagset :=
  let temp := hmac c (dh c priv pub) [] in
  let tag_set_key := hmac c temp (str "XDHRatchetTagSet" ++ [1]) in
  mkTS (key_context c (kc_root (ts_ctx t)) tag_set_key)
       (KActive send recv priv pub) 0 ((1 + send + recv) mod 65536).

Definition ts_with_state (t : tagset) (s : key_state) : tagset :=
  mkTS (ts_ctx t) s (ts_index t) (ts_id t).

(** tag_set.rs:376-521 [try_generate_next_key]; [newpriv] is the random key it may draw. *)
Definition try_next_key (c : rcrypt) (t : tagset) (newpriv : bytes)
  : tagset * res (option next_key) :=
  if ts_index t <=? RATCHET_THRESHOLD then (t, Ok None)
  else
    match ts_state t with
    | KUninit =>
        (ts_with_state t (KAwaitRev 0 0 newpriv),
         Ok (Some (ForwardKey 0 (Some (pubkey c newpriv)) true)))
    | KActive send recv priv pub =>
        if negb (ts_id t mod 2 =? 0) then
          if MAX_KEY_ID <? send + 1 then (ts_with_state t KPoisoned, Err ETerminated)
          else (ts_with_state t (KAwaitConf (send + 1) recv newpriv pub),
                Ok (Some (ForwardKey (send + 1) (Some (pubkey c newpriv)) false)))
        else
          if MAX_KEY_ID <? recv + 1 then (ts_with_state t KPoisoned, Err ETerminated)
          else (ts_with_state t (KAwaitRev send (recv + 1) priv),
                Ok (Some (ForwardKey (recv + 1) None true)))
    | KAwaitConf send recv priv pub =>
        (t, Ok (Some (ForwardKey send (Some (pubkey c priv)) false)))
    | KAwaitRev send recv priv =>
        (t, Ok (Some (if (send =? 0) && (recv =? 0)
                      then ForwardKey 0 (Some (pubkey c priv)) true
                      else ForwardKey recv None true)))
    | KPoisoned => (t, Err EInvalidState)
    end.

(** tag_set.rs:527-568 [can_ratchet] *)
Definition can_ratchet (t : tagset) (k : next_key) : bool :=
  match ts_state t, k with
  | KUninit, ForwardKey id (Some _) true => id =? 0
  | KAwaitRev _ _ _, ReverseKey _ (Some _) => true
  | KAwaitConf _ _ _ _, ReverseKey _ None => true
  | KActive send _ _ _, ForwardKey id (Some _) false => (send <? id) && (id <=? MAX_KEY_ID)
  | KActive _ recv _ _, ForwardKey id None true => (recv <? id) && (id <=? MAX_KEY_ID)
  | _, _ => false
  end.

(** tag_set.rs:744-786, the arm for a duplicate [ForwardKey] *)
Definition dup_forward (c : rcrypt) (recv id : N) (requested : bool) (priv : bytes) : next_key :=
  if requested then ReverseKey id (Some (pubkey c priv)) else ReverseKey recv None.

(** tag_set.rs:571-799 [handle_next_key] *)
Definition handle_next_key (c : rcrypt) (t : tagset) (k : next_key) (newpriv : bytes)
  : tagset * res (option next_key) :=
  match ts_state t, k with
  | KUninit, ForwardKey id (Some rpub) true =>
      if id =? 0 then (ts_reinit c t newpriv rpub 0 0,
                       Ok (Some (ReverseKey 0 (Some (pubkey c newpriv)))))
      else (ts_with_state t KPoisoned, Err EInvalidState)
  | KAwaitRev send recv priv, ReverseKey _ (Some rpub) => (ts_reinit c t priv rpub send recv, Ok None)
  | KAwaitConf send recv priv pub, ReverseKey _ None => (ts_reinit c t priv pub send recv, Ok None)
  | KActive send recv priv pub, ForwardKey id key requested =>
      match key, requested with
      | Some rpub, false =>
          if send <? id then
            if MAX_KEY_ID <? id then (ts_with_state t KPoisoned, Err ETerminated)
            else (ts_reinit c t priv rpub id recv, Ok (Some (ReverseKey recv None)))
          else (t, Ok (Some (dup_forward c recv id requested priv)))
      | None, true =>
          if recv <? id then
            if MAX_KEY_ID <? id then (ts_with_state t KPoisoned, Err ETerminated)
            else (ts_reinit c t newpriv pub send id,
                  Ok (Some (ReverseKey id (Some (pubkey c newpriv)))))
          else (t, Ok (Some (dup_forward c recv id requested priv)))
      | _, _ => (t, Ok (Some (dup_forward c recv id requested priv)))
      end
  | KActive _ _ _ _, ReverseKey _ _ => (t, Ok None)
  | _, _ => (ts_with_state t KPoisoned, Err EInvalidState)
  end.

(** The [n] times repeated [next_entry] of session.rs and inbound.rs, every entry put into the
    session's own map and its tag into the map shared by all sessions.  [gen_opt]
    (session.rs:941-946) carries on when the set has run out; the uses of
    [gen] ([expect("to succeed")], session.rs:545-552,961-968) would panic. *)
Fixpoint gen_opt (c : rcrypt) (n : nat) (t : tagset) : tagset * list entry :=
  match n with
  | O => (t, [])
  | S n =>
      match next_entry c t with
      | (t', Some e) => let '(t'', l) := gen_opt c n t' in (t'', e :: l)
      | (t', None) => gen_opt c n t'
      end
  end.
Definition gen (c : rcrypt) (n : nat) (t : tagset) : option (tagset * list entry) :=
  let '(t', l) := gen_opt c n t in
  if (List.length l =? n)%nat then Some (t', l) else None.

Definition put_entries (m : nmap entry) (l : list entry) : nmap entry :=
  fold_left (fun m e => nput (e_tag e) e m) l m.
Definition put_tags (m : nmap N) (remote : N) (l : list entry) : nmap N :=
  fold_left (fun m e => nput (e_tag e) remote m) l m.
Definition del_tags {A} (m : nmap A) (l : list N) : nmap A := fold_left (fun m t => ndel t m) l m.

(** ** context.rs *)

(** context.rs:65-83 [KeyContext] *)
Record kc := mkKCtx { k_chain : bytes; k_in : bytes; k_out : bytes; k_priv : bytes; k_pub : bytes }.

(** context.rs:49, 89-104 [from_private_key] *)
Definition kc_from_private (c : rcrypt) (priv : bytes) : kc :=
  let chain := sha c (str "Noise_IKelg2+hs2_25519_ChaChaPoly_SHA256") in
  let out := sha c chain in
  mkKCtx chain (sha c (out ++ pubkey c priv)) out priv (pubkey c priv).

(** outbound.rs:60-78 [OutboundSession] *)
Record outbound := mkOut { o_state : bytes; o_static : bytes; o_eph : bytes; o_chain : bytes }.

(** The two-output HKDF written out in context.rs:204-208, 236-240, 338-342, 376-380 *)
Definition mix_key (c : rcrypt) (chain shared : bytes) : bytes * bytes :=
  let temp := hmac c chain shared in
  let chain' := hmac c temp [1] in
  (chain', hmac c temp (chain' ++ [2])).

(** context.rs:177-290 [create_outbound_session] after the garlic payload has been built;
    [eph], [tweak] is the key drawn by [generate_ephemeral_keypair]. *)
Definition create_outbound (c : rcrypt) (k : kc) (remote_pub payload eph : bytes) (tweak : N)
  : outbound * bytes :=
  let st := sha c (sha c (k_out k ++ remote_pub) ++ epub c eph) in
  let '(chain, key) := mix_key c (k_chain k) (dh c eph remote_pub) in
  let static_ct := aseal c key 0 st (k_pub k) in
  let st := sha c (st ++ static_ct) in
  let '(chain, key) := mix_key c chain (dh c (k_priv k) remote_pub) in
  let payload_ct := aseal c key 0 st payload in
  let st := sha c (st ++ payload_ct) in
  (mkOut st (k_priv k) eph chain, represent c eph tweak ++ static_ct ++ payload_ct).

(** inbound.rs:45-101 [InboundSessionState]; the tag sets are numbered from 0 in the order
    they were made. *)
Inductive inbound :=
| IAwaiting (chain state reph rstatic : bytes)
| ISent (sets : list (tagset * tagset)) (mapping : nmap nat) (nsr : tagset)
        (reph rstatic state chain : bytes)
| IPoisoned.

(** context.rs:295-409 [create_inbound_session] *)
Definition create_inbound (c : rcrypt) (k : kc) (message : bytes) : res (inbound * bytes) :=
  if (List.length message <? 100)%nat then Err EMalformed
  else
    match unrepresent c (firstn 32 (skipn 4 message)) with
    | None => Err EMalformed
    | Some reph =>
        let st := sha c (k_in k ++ reph) in
        let '(chain, key) := mix_key c (k_chain k) (dh c (k_priv k) reph) in
        let static_ct := firstn 48 (skipn 36 message) in
        match aopen c key 0 st static_ct with
        | None => Err ECrypto
        | Some rstatic =>
            let st := sha c (st ++ static_ct) in
            let '(chain, key) := mix_key c chain (dh c (k_priv k) rstatic) in
            let payload_ct := skipn 84 message in
            match aopen c key 0 st payload_ct with
            | None => Err ECrypto
            | Some payload =>
                Ok (IAwaiting chain (sha c (st ++ payload_ct)) reph rstatic, payload)
            end
        end
    end.

(** ** inbound.rs *)

(** inbound.rs:179-182 and outbound.rs:104-108: the tag set for [NewSessionReply] *)
Definition nsr_tag_set (c : rcrypt) (chain : bytes) : tagset :=
  let temp := hmac c chain [] in
  ts_new c chain (hmac c temp (str "SessionReplyTags" ++ [1])).

(** inbound.rs:197-219, 337-359: the keys of a reply *)
Definition nsr_keys (c : rcrypt) (chain ee es : bytes) : bytes * bytes :=
  let chain' := fst (mix_key c chain ee) in
  mix_key c chain' es.

(** inbound.rs:237-239, outbound.rs:197-205: first and second half of the split *)
Definition split_keys (c : rcrypt) (chain : bytes) : bytes * bytes :=
  let temp := hmac c chain [] in
  let k1 := hmac c temp [1] in
  (k1, hmac c temp (k1 ++ [2])).

(** inbound.rs:246-248, outbound.rs:212-214 *)
Definition attach_key (c : rcrypt) (key : bytes) : bytes :=
  hmac c (hmac c key []) (str "AttachPayloadKDF" ++ [1]).

(** inbound.rs:196-266 / 336-406: one [NewSessionReply] under garlic tag [tag] *)
Definition nsr_message (c : rcrypt) (reph rstatic ns_state ns_chain payload eph : bytes)
  (tweak tag : N) : bytes * tagset * tagset :=
  let '(chain, key) := nsr_keys c ns_chain (dh c eph reph) (dh c eph rstatic) in
  let st := sha c (sha c (ns_state ++ le_bytes 8 tag) ++ epub c eph) in
  let mac := aseal c key 0 st [] in
  let st := sha c (st ++ mac) in
  let '(recv_key, send_key) := split_keys c chain in
  let ct := aseal c (attach_key c send_key) 0 st payload in
  (le_bytes 8 tag ++ represent c eph tweak ++ mac ++ ct,
   ts_new c chain send_key, ts_new c chain recv_key).

(** inbound.rs:147-449 [create_new_session_reply] *)
Definition create_reply (c : rcrypt) (i : inbound) (payload eph : bytes) (tweak : N)
  : inbound * res (bytes * list entry) :=
  match i with
  | IAwaiting chain st reph rstatic =>
      match next_entry c (nsr_tag_set c chain) with
      | (nsr, Some e) =>
          let '(msg, send, recv) := nsr_message c reph rstatic st chain payload eph tweak (e_tag e) in
          match gen c (N.to_nat NUM_TAGS) recv with
          | Some (recv, tags) =>
              (ISent [(send, recv)]
                 (fold_left (fun m e => nput (e_tag e) 0%nat m) tags [])
                 nsr reph rstatic st chain, Ok (msg, tags))
          | None => (IPoisoned, Panic)
          end
      | (_, None) => (IPoisoned, Panic)
      end
  | ISent sets mapping nsr reph rstatic st chain =>
      match next_entry c nsr with
      | (nsr, Some e) =>
          let '(msg, send, recv) := nsr_message c reph rstatic st chain payload eph tweak (e_tag e) in
          match gen c (N.to_nat NUM_TAGS) recv with
          | Some (recv, tags) =>
              (ISent (sets ++ [(send, recv)])
                 (fold_left (fun m e => nput (e_tag e) (List.length sets) m) tags mapping)
                 nsr reph rstatic st chain, Ok (msg, tags))
          | None => (IPoisoned, Panic)
          end
      | (_, None) => (IPoisoned, Panic)
      end
  | IPoisoned => (IPoisoned, Err EInvalidState)
  end.

(** session.rs:908-911, inbound.rs:485-488: [message[12..]] panics on fewer than 12 bytes. *)
Definition open_es (c : rcrypt) (e : entry) (message : bytes) : res bytes :=
  if (List.length message <? 12)%nat then Panic
  else
    match aopen c (e_key e) (e_index e) (le_bytes 8 (e_tag e)) (skipn 12 message) with
    | Some p => Ok p
    | None => Err ECrypto
    end.

(** inbound.rs:456-491 [handle_existing_session] *)
Definition handle_existing (c : rcrypt) (i : inbound) (tag : N) (e : entry) (message : bytes)
  : res (bytes * tagset * tagset) :=
  match i with
  | ISent sets mapping _ _ _ _ _ =>
      match nget tag mapping with
      | None => Err EUnknownTag
      | Some ix =>
          match nth_error sets ix with
          | None => Err EUnknownTag
          | Some (send, recv) =>
              match open_es c e message with
              | Ok p => Ok (p, send, recv)
              | Err x => Err x
              | Panic => Panic
              end
          end
      end
  | _ => Err EInvalidState
  end.

(** ** outbound.rs *)

(** outbound.rs:103-113 [generate_new_session_reply_tags] *)
Definition reply_tags (c : rcrypt) (o : outbound) : list entry :=
  snd (gen_opt c (N.to_nat NSR_TAG_COUNT) (nsr_tag_set c (o_chain o))).

(** outbound.rs:123-222 [handle_new_session_reply]; an invalid representative makes
    [unwrap()] panic. *)
Definition handle_reply (c : rcrypt) (o : outbound) (e : entry) (message : bytes)
  : res (bytes * tagset * tagset) :=
  if (List.length message <? 60)%nat then Err EMalformed
  else
    match unrepresent c (firstn 32 (skipn 12 message)) with
    | None => Panic
    | Some rpub =>
        let mac := firstn 16 (skipn 44 message) in
        let ct := skipn 60 message in
        let st := sha c (sha c (o_state o ++ le_bytes 8 (e_tag e)) ++ rpub) in
        let '(chain, key) := nsr_keys c (o_chain o) (dh c (o_eph o) rpub) (dh c (o_static o) rpub) in
        match aopen c key 0 st mac with
        | None => Err ECrypto
        | Some _ =>
            let st := sha c (st ++ mac) in
            let '(send_key, recv_key) := split_keys c chain in
            match aopen c (attach_key c recv_key) 0 st ct with
            | None => Err ECrypto
            | Some p => Ok (p, ts_new c chain send_key, ts_new c chain recv_key)
            end
        end
    end.

(** ** session.rs: active sessions *)

(** session.rs:660-676 [NsrContext]; outbound sessions are numbered from 0. *)
Inductive nsr_ctx :=
| NInactive
| NActive (created : N) (entries : nmap (nat * entry)) (sessions : list outbound).

(** session.rs:774-806 [Session]; the map shared by all sessions is passed separately. *)
Record session := mkSess {
  se_expiring : list (N * list N);
  se_nsr : nsr_ctx;
  se_pending : option next_key;
  se_recv : tagset;
  se_send : tagset;
  se_entries : nmap entry
}.

(** session.rs:811-834 [Session::new] *)
Definition sess_new (nsr : nsr_ctx) (recv send : tagset) (entries : nmap entry) : session :=
  mkSess [] nsr None recv send entries.

(** session.rs:694-721 [NsrContext::decrypt] with the caller's [map_err] (858-870) *)
Definition nsr_decrypt (c : rcrypt) (n : nsr_ctx) (tag : N) (message : bytes)
  : nsr_ctx * res (N * N * bytes) :=
  match n with
  | NInactive => (n, Err EInvalidState)
  | NActive created entries sessions =>
      match nget tag entries with
      | None => (n, Err EInvalidState)
      | Some (ix, e) =>
          let n' := NActive created (ndel tag entries) sessions in
          match nth_error sessions ix with
          | None => (n', Err EInvalidState)
          | Some o =>
              match handle_reply c o e message with
              | Ok (p, _, _) => (n', Ok (e_set e, e_index e, p))
              | Err _ => (n', Err EInvalidState)
              | Panic => (n', Panic)
              end
          end
      end
  end.

(** session.rs:929-1021: one [NextKey] block.  [g] is the shared map. *)
Definition handle_block (c : rcrypt) (remote now : N) (newpriv : bytes) (g : nmap N) (s : session)
  (k : next_key) : nmap N * session * res unit :=
  match k with
  | ForwardKey _ _ _ =>
      if can_ratchet (se_recv s) k then
        let '(old, extra) := gen_opt c (N.to_nat NUM_EXTRA_TAGS) (se_recv s) in
        let entries := put_entries (se_entries s) extra in
        let g := put_tags g remote extra in
        let expiring := se_expiring s ++ [(now, nkeys entries)] in
        match handle_next_key c old k newpriv with
        | (t, Ok reply) =>
            match gen c (N.to_nat NUM_TAGS) t with
            | Some (t, l) =>
                (put_tags g remote l,
                 mkSess expiring (se_nsr s) reply t (se_send s) (put_entries entries l), Ok tt)
            | None => (g, mkSess expiring (se_nsr s) (se_pending s) t (se_send s) entries, Panic)
            end
        | (t, Err e) => (g, mkSess expiring (se_nsr s) (se_pending s) t (se_send s) entries, Err e)
        | (t, Panic) => (g, mkSess expiring (se_nsr s) (se_pending s) t (se_send s) entries, Panic)
        end
      else
        match handle_next_key c (se_recv s) k newpriv with
        | (t, Ok reply) =>
            (g, mkSess (se_expiring s) (se_nsr s) reply t (se_send s) (se_entries s), Ok tt)
        | (t, Err e) =>
            (g, mkSess (se_expiring s) (se_nsr s) (se_pending s) t (se_send s) (se_entries s), Err e)
        | (t, Panic) =>
            (g, mkSess (se_expiring s) (se_nsr s) (se_pending s) t (se_send s) (se_entries s), Panic)
        end
  | ReverseKey _ _ =>
      match handle_next_key c (se_send s) k newpriv with
      | (t, Ok reply) =>
          (g, mkSess (se_expiring s) (se_nsr s) reply (se_recv s) t (se_entries s), Ok tt)
      | (t, Err e) =>
          (g, mkSess (se_expiring s) (se_nsr s) (se_pending s) (se_recv s) t (se_entries s), Err e)
      | (t, Panic) =>
          (g, mkSess (se_expiring s) (se_nsr s) (se_pending s) (se_recv s) t (se_entries s), Panic)
      end
  end.

(** session.rs:927-1022 [try_for_each]; [newpriv i] is the key drawn while block [i] is handled. *)
Fixpoint handle_blocks (c : rcrypt) (remote now : N) (newpriv : nat -> bytes) (i : nat) (g : nmap N)
  (s : session) (l : list block) : nmap N * session * res unit :=
  match l with
  | [] => (g, s, Ok tt)
  | BNextKey k :: t =>
      match handle_block c remote now (newpriv i) g s k with
      | (g, s, Ok _) => handle_blocks c remote now newpriv (S i) g s t
      | r => r
      end
  | _ :: t => handle_blocks c remote now newpriv (S i) g s t
  end.

(** session.rs:890-906: a new tag for the used one *)
Definition refill (c : rcrypt) (remote : N) (g : nmap N) (s : session) (entries : nmap entry)
  : nmap N * session :=
  match next_entry c (se_recv s) with
  | (t, None) => (g, mkSess (se_expiring s) (se_nsr s) (se_pending s) t (se_send s) entries)
  | (t, Some e) =>
      (nput (e_tag e) remote g,
       mkSess (se_expiring s) (se_nsr s) (se_pending s) t (se_send s) (nput (e_tag e) e entries))
  end.

(** session.rs:839-1025 [Session::decrypt]; the answer is (tag set id, tag index, payload). *)
Definition sess_decrypt (c : rcrypt) (remote now : N) (newpriv : nat -> bytes) (g : nmap N)
  (s : session) (tag : N) (message : bytes) : nmap N * session * res (N * N * bytes) :=
  match nget tag (se_entries s) with
  | None =>
      let '(n, r) := nsr_decrypt c (se_nsr s) tag message in
      (g, mkSess (se_expiring s) n (se_pending s) (se_recv s) (se_send s) (se_entries s), r)
  | Some e =>
      let '(g, s) := refill c remote g s (ndel tag (se_entries s)) in
      match open_es c e message with
      | Panic => (g, s, Panic)
      | Err x => (g, s, Err x)
      | Ok payload =>
          match parse_garlic payload with
          | None => (g, s, Err EMalformed)
          | Some blocks =>
              match handle_blocks c remote now newpriv 0 g s blocks with
              | (g, s, Ok _) => (g, s, Ok (e_set e, e_index e, payload))
              | (g, s, Err x) => (g, s, Err x)
              | (g, s, Panic) => (g, s, Panic)
              end
          end
      end
  end.

Definition opt_next_key (k : option next_key) : list block :=
  match k with Some k => [BNextKey k] | None => [] end.

(** session.rs:1028-1102 [Session::encrypt] of the blocks the caller has put into the builder *)
Definition sess_encrypt (c : rcrypt) (s : session) (blocks : list block) (newpriv : bytes)
  : session * res (N * N * bytes) :=
  match next_entry c (se_send s) with
  | (t, None) =>
      (mkSess (se_expiring s) (se_nsr s) (se_pending s) (se_recv s) t (se_entries s), Err EInvalidState)
  | (t, Some e) =>
      match try_next_key c t newpriv with
      | (t, Err x) =>
          (mkSess (se_expiring s) (se_nsr s) (se_pending s) (se_recv s) t (se_entries s), Err x)
      | (t, Panic) =>
          (mkSess (se_expiring s) (se_nsr s) (se_pending s) (se_recv s) t (se_entries s), Panic)
      | (t, Ok fwd) =>
          let s' := mkSess (se_expiring s) (se_nsr s) None (se_recv s) t (se_entries s) in
          match build_garlic (blocks ++ opt_next_key fwd ++ opt_next_key (se_pending s)) with
          | None => (s', Panic)
          | Some m =>
              (s', Ok (e_set e, e_index e,
                       le_bytes 8 (e_tag e) ++
                       aseal c (e_key e) (e_index e) (le_bytes 8 (e_tag e)) m))
          end
      end
  end.

(** session.rs:1114-1135, the loop of [maintain] *)
Fixpoint expire (now : N) (l : list (N * list N)) (g : nmap N) (entries : nmap entry)
  : list (N * list N) * nmap N * nmap entry :=
  match l with
  | [] => ([], g, entries)
  | (created, tags) :: t =>
      if now - created <? PREV_TAG_MAX_AGE then (l, g, entries)
      else expire now t (del_tags g tags) (del_tags entries tags)
  end.

(** session.rs:1105-1136 [Session::maintain], with [try_expire] (724-736) *)
Definition sess_maintain (now : N) (g : nmap N) (s : session) : nmap N * session :=
  let '(n, g) :=
    match se_nsr s with
    | NInactive => (NInactive, g)
    | NActive created entries _ =>
        if now - created <? NSR_MAX_AGE then (se_nsr s, g)
        else (NInactive, del_tags g (nkeys entries))
    end in
  let '(x, g, entries) := expire now (se_expiring s) g (se_entries s) in
  (g, mkSess x n (se_pending s) (se_recv s) (se_send s) entries).

(** session.rs:1139-1151 [Session::destroy]: what is left of the shared map *)
Definition sess_destroy (g : nmap N) (s : session) : nmap N := del_tags g (nkeys (se_entries s)).

(** ** session.rs: pending sessions *)

(** session.rs:105-164 [PendingSessionState] *)
Inductive pstate :=
| PInbound (i : inbound) (entries : nmap entry)
| PAwaitNsr (out : list outbound) (rpub : bytes) (nsr : nmap (nat * entry)) (entries : nmap entry)
| PAwaitEs (out : list outbound) (send recv : tagset) (rpub : bytes)
           (nsr : nmap (nat * entry)) (entries : nmap entry)
| PPoisoned.

(** session.rs:185-200 [PendingSession]; the key context and the ids are those of the manager. *)
Record pending := mkPend { p_created : N; p_state : pstate }.

(** session.rs:72-102 [PendingSessionEvent] *)
Inductive pevent :=
| PvSend (message : bytes)
| PvReturn (message : bytes) (set index : N)
| PvCreate (message : bytes) (s : session) (set index : N).

(** session.rs:361-368, 234-246: reply tags into both maps, for the outbound session numbered [ix] *)
Definition put_nsr (m : nmap (nat * entry)) (ix : nat) (l : list entry) : nmap (nat * entry) :=
  fold_left (fun m e => nput (e_tag e) (ix, e) m) l m.

(** The garlic cloves of session.rs:285-298, context.rs:152-175, mod.rs:359-373 *)
Definition data_clove (mid exp dest : N) (message : bytes) : block :=
  BClove Data mid exp (DDestination (be_bytes 32 dest)) (be_bytes 4 (len message) ++ message).
Definition store_clove (mid exp local : N) (lease_set : bytes) : block :=
  BClove DatabaseStore mid exp DLocal
    (ser_store (be_bytes 32 local) (KLeaseSet2 lease_set) SrNone).

(** What [advance_outbound] and [encrypt] draw from the random number generator and the clock *)
Record draw := mkDraw {
  dr_eph : bytes; dr_tweak : N; dr_priv : bytes; dr_mid : N; dr_mid2 : N; dr_exp : N; dr_secs : N
}.

(** context.rs:152-175: the garlic message inside [NewSession] *)
Definition ns_blocks (local remote : N) (lease_set message : bytes) (d : draw) : list block :=
  [BDateTime (dr_secs d mod 4294967296);
   store_clove (dr_mid2 d) (dr_exp d) local lease_set;
   data_clove (dr_mid d) (dr_exp d) remote message].

(** session.rs:203-222 [new_inbound] *)
Definition pend_inbound (now : N) (i : inbound) : pending := mkPend now (PInbound i []).

(** session.rs:225-258 [new_outbound] *)
Definition pend_outbound (c : rcrypt) (now remote : N) (rpub : bytes) (o : outbound) (g : nmap N)
  : nmap N * pending :=
  let tags := reply_tags c o in
  (put_tags g remote tags, mkPend now (PAwaitNsr [o] rpub (put_nsr [] 0 tags) [])).

(** session.rs:268-457 [advance_outbound].  A step that returns an error leaves the state
    [Poisoned]. *)
Definition advance_outbound (c : rcrypt) (k : kc) (local remote now : N) (lease_set message : bytes)
  (d : draw) (g : nmap N) (p : pending) : nmap N * pending * res pevent :=
  let poisoned := mkPend (p_created p) PPoisoned in
  match p_state p with
  | PInbound i entries =>
      match build_garlic [data_clove (dr_mid d) (dr_exp d) remote message] with
      | None => (g, poisoned, Panic)
      | Some payload =>
          match create_reply c i payload (dr_eph d) (dr_tweak d) with
          | (i, Ok (msg, tags)) =>
              (put_tags g remote tags,
               mkPend (p_created p) (PInbound i (put_entries entries tags)), Ok (PvSend msg))
          | (_, Err e) => (g, poisoned, Err e)
          | (_, Panic) => (g, poisoned, Panic)
          end
      end
  | PAwaitNsr out rpub nsr entries =>
      match build_garlic (ns_blocks local remote lease_set message d) with
      | None => (g, poisoned, Panic)
      | Some payload =>
          let '(o, msg) := create_outbound c k rpub payload (dr_eph d) (dr_tweak d) in
          let tags := reply_tags c o in
          (put_tags g remote tags,
           mkPend (p_created p)
             (PAwaitNsr (out ++ [o]) rpub (put_nsr nsr (List.length out) tags) entries),
           Ok (PvSend msg))
      end
  | PAwaitEs out send recv rpub nsr entries =>
      match next_entry c send with
      | (_, None) => (g, poisoned, Err EInvalidState)
      | (send, Some e) =>
          match build_garlic [data_clove (dr_mid d) (dr_exp d) remote message] with
          | None => (g, poisoned, Panic)
          | Some m =>
              (g, poisoned,
               Ok (PvCreate
                     (le_bytes 8 (e_tag e) ++
                      aseal c (e_key e) (e_index e) (le_bytes 8 (e_tag e)) m)
                     (sess_new (NActive now nsr out) recv send entries) (e_set e) (e_index e)))
          end
      end
  | PPoisoned => (g, poisoned, Err EInvalidState)
  end.

(** session.rs:463-646 [advance_inbound] *)
Definition advance_inbound (c : rcrypt) (remote tag : N) (message : bytes) (g : nmap N) (p : pending)
  : nmap N * pending * res pevent :=
  let poisoned := mkPend (p_created p) PPoisoned in
  match p_state p with
  | PInbound i entries =>
      match nget tag entries with
      | None => (g, poisoned, Err EInvalidState)
      | Some e =>
          match handle_existing c i tag e message with
          | Ok (p, send, recv) =>
              (g, poisoned, Ok (PvCreate p (sess_new NInactive recv send (ndel tag entries))
                                         (e_set e) (e_index e)))
          | Err x => (g, poisoned, Err x)
          | Panic => (g, poisoned, Panic)
          end
      end
  | PAwaitNsr out rpub nsr entries =>
      match nget tag nsr with
      | None => (g, poisoned, Err EInvalidState)
      | Some (ix, e) =>
          match nth_error out ix with
          | None => (g, poisoned, Panic)
          | Some o =>
              match handle_reply c o e message with
              | Ok (m, send, recv) =>
                  match gen c (N.to_nat NUM_TAGS) recv with
                  | None => (g, poisoned, Panic)
                  | Some (recv, tags) =>
                      (put_tags g remote tags,
                       mkPend (p_created p)
                         (PAwaitEs out send recv rpub (ndel tag nsr) (put_entries entries tags)),
                       Ok (PvReturn m (e_set e) (e_index e)))
                  end
              | Err x => (g, poisoned, Err x)
              | Panic => (g, poisoned, Panic)
              end
          end
      end
  | PAwaitEs out send recv rpub nsr entries =>
      match nget tag nsr with
      | None => (g, poisoned, Err EInvalidState)
      | Some (ix, e) =>
          match nth_error out ix with
          | None => (g, poisoned, Panic)
          | Some o =>
              match handle_reply c o e message with
              | Ok (m, _, _) =>
                  (g, mkPend (p_created p) (PAwaitEs out send recv rpub (ndel tag nsr) entries),
                   Ok (PvReturn m (e_set e) (e_index e)))
              | Err x => (g, poisoned, Err x)
              | Panic => (g, poisoned, Panic)
              end
          end
      end
  | PPoisoned => (g, poisoned, Err EInvalidState)
  end.

(** ** mod.rs: [SessionManager] *)

(** mod.rs:99-117 [ActiveSession] *)
Record active := mkActive {
  a_in_acks : list (N * N);
  a_received : N;
  a_sent : N;
  a_lease : option bytes;
  a_out_acks : list (N * N);
  a_sess : session
}.
Definition active_new (now : N) (s : session) : active := mkActive [] now now None [] s.

(** mod.rs:161-196 [SessionManager]; [m_terminated] are the queued [SessionTerminated] events. *)
Record manager := mkMgr {
  m_local : N;
  m_kc : kc;
  m_lease : bytes;
  m_active : nmap active;
  m_pending : nmap pending;
  m_tags : nmap N;
  m_remotes : nmap bytes;
  m_terminated : list N
}.

(** mod.rs:200-218 [SessionManager::new] *)
Definition mgr_new (c : rcrypt) (local : N) (priv lease_set : bytes) : manager :=
  mkMgr local (kc_from_private c priv) lease_set [] [] [] [] [].

Definition mgr_with (m : manager) (act : nmap active) (pend : nmap pending) (tags : nmap N)
  : manager :=
  mkMgr (m_local m) (m_kc m) (m_lease m) act pend tags (m_remotes m) (m_terminated m).

(** mod.rs:259-265 [add_remote_destination] *)
Definition mgr_add_remote (m : manager) (dest : N) (pub : bytes) : manager :=
  mkMgr (m_local m) (m_kc m) (m_lease m) (m_active m) (m_pending m) (m_tags m)
        (nput dest pub (m_remotes m)) (m_terminated m).

(** mod.rs:228-251 [register_lease_set] *)
Definition mgr_register_lease (m : manager) (lease_set : bytes) : manager :=
  mkMgr (m_local m) (m_kc m) lease_set
        (map (fun x => (fst x, mkActive (a_in_acks (snd x)) (a_received (snd x)) (a_sent (snd x))
                                 (Some lease_set) (a_out_acks (snd x)) (a_sess (snd x)))) (m_active m))
        (m_pending m) (m_tags m) (m_remotes m) (m_terminated m).

(** mod.rs:268-282 [remove_session] *)
Definition mgr_remove (m : manager) (dest : N) : manager :=
  match nget dest (m_active m) with
  | None => m
  | Some a =>
      mkMgr (m_local m) (m_kc m) (m_lease m) (ndel dest (m_active m)) (m_pending m)
            (sess_destroy (m_tags m) (a_sess a)) (m_remotes m) (m_terminated m ++ [dest])
  end.

Definition with_len (m : bytes) : bytes := be_bytes 4 (len m) ++ m.
Definition res_map {A B} (f : A -> B) (r : res A) : res B :=
  match r with Ok a => Ok (f a) | Err e => Err e | Panic => Panic end.

Definition pair_mem (p : N * N) (l : list (N * N)) : bool :=
  existsb (fun q => (fst q =? fst p) && (snd q =? snd p)) l.
Definition pair_add (p : N * N) (l : list (N * N)) : list (N * N) :=
  if pair_mem p l then l else l ++ [p].
Definition pair_del (p : N * N) (l : list (N * N)) : list (N * N) :=
  filter (fun q => negb ((fst q =? fst p) && (snd q =? snd p))) l.

(** mod.rs:345-522 [encrypt] *)
Definition mgr_encrypt (c : rcrypt) (now : N) (d : draw) (m : manager) (dest : N) (message : bytes)
  : manager * res bytes :=
  match nget dest (m_active m) with
  | Some a =>
      let acks := match a_in_acks a with [] => [] | l => [BAck l] end in
      let clove := data_clove (dr_mid d) (dr_exp d) dest message in
      match a_lease a with
      | None =>
          let '(s, r) := sess_encrypt c (a_sess a) (clove :: acks) (dr_priv d) in
          let a' := mkActive [] (a_received a) (a_sent a) None (a_out_acks a) s in
          let m' := mgr_with m (nput dest a' (m_active m)) (m_pending m) (m_tags m) in
          match r with
          | Ok (_, _, msg) => (m', Ok (with_len msg))
          | Err ETerminated => (mgr_remove m' dest, Err ETerminated)
          | Err e => (m', Err e)
          | Panic => (m', Panic)
          end
      | Some lease_set =>
          let store := store_clove (dr_mid2 d) (dr_exp d) (m_local m) lease_set in
          let '(s, r) := sess_encrypt c (a_sess a) (clove :: acks ++ [store; BAckRequest]) (dr_priv d) in
          match r with
          | Ok (set, index, msg) =>
              let a' := mkActive [] (a_received a) now (Some lease_set)
                                 (pair_add (set, index) (a_out_acks a)) s in
              (mgr_with m (nput dest a' (m_active m)) (m_pending m) (m_tags m), Ok (with_len msg))
          | Err e =>
              let a' := mkActive [] (a_received a) (a_sent a) (Some lease_set) (a_out_acks a) s in
              let m' := mgr_with m (nput dest a' (m_active m)) (m_pending m) (m_tags m) in
              match e with
              | ETerminated => (mgr_remove m' dest, Err ETerminated)
              | _ => (m', Err e)
              end
          | Panic =>
              let a' := mkActive [] (a_received a) (a_sent a) (Some lease_set) (a_out_acks a) s in
              (mgr_with m (nput dest a' (m_active m)) (m_pending m) (m_tags m), Panic)
          end
      end
  | None =>
      match nget dest (m_pending m) with
      | Some p =>
          match advance_outbound c (m_kc m) (m_local m) dest now (m_lease m) message d (m_tags m) p with
          | (g, p', Ok (PvSend msg)) =>
              (mgr_with m (m_active m) (nput dest p' (m_pending m)) g, Ok (with_len msg))
          | (g, p', Ok (PvCreate msg s _ _)) =>
              (mgr_with m (nput dest (active_new now s) (m_active m)) (ndel dest (m_pending m)) g,
               Ok (with_len msg))
          | (g, p', Ok (PvReturn _ _ _)) =>
              (mgr_with m (m_active m) (nput dest p' (m_pending m)) g, Panic)
          | (g, p', Err e) => (mgr_with m (m_active m) (nput dest p' (m_pending m)) g, Err e)
          | (g, p', Panic) => (mgr_with m (m_active m) (nput dest p' (m_pending m)) g, Panic)
          end
      | None =>
          match nget dest (m_remotes m) with
          | None => (m, Err EInvalidState)
          | Some rpub =>
              match build_garlic (ns_blocks (m_local m) dest (m_lease m) message d) with
              | None => (m, Panic)
              | Some payload =>
                  let '(o, msg) := create_outbound c (m_kc m) rpub payload (dr_eph d) (dr_tweak d) in
                  let '(g, p) := pend_outbound c now dest rpub o (m_tags m) in
                  (mgr_with m (m_active m) (nput dest p (m_pending m)) g, Ok (with_len msg))
              end
          end
      end
  end.

(** mod.rs:570-590: the destination a [NewSession] names: the first [DatabaseStore] clove must
    hold a [LeaseSet2] whose destination hashes to its key.  Parsing a store and computing the
    id are the argument [lease_owner] (the formats are modelled in I2npModel.v/PrimModel.v);
    it answers the key and the destination's id. *)
Fixpoint first_store (l : list block) : option bytes :=
  match l with
  | [] => None
  | BClove DatabaseStore _ _ _ body :: _ => Some body
  | _ :: t => first_store t
  end.
Definition ns_remote (lease_owner : bytes -> option (N * N)) (l : list block) : res N :=
  match first_store l with
  | None => Err EMalformed
  | Some body =>
      match lease_owner body with
      | None => Err EMalformed
      | Some (key, id) => if key =? id then Ok id else Err EInvalidKey
      end
  end.

(** garlic.rs [GarlicClove] *)
Record clove := mkClove { cl_type : mtype; cl_id : N; cl_exp : N; cl_delivery : delivery; cl_body : bytes }.

(** mod.rs:733-820: the blocks of a decrypted message from [dest] *)
Fixpoint take_cloves (dest set index : N) (act : nmap active) (l : list block)
  : nmap active * list clove :=
  match l with
  | [] => (act, [])
  | BClove t id x d body :: r =>
      let '(act, l) := take_cloves dest set index act r in (act, mkClove t id x d body :: l)
  | BAckRequest :: r =>
      let act :=
        match nget dest act with
        | None => act
        | Some a => nput dest (mkActive (pair_add (set, index) (a_in_acks a)) (a_received a) (a_sent a)
                                 (a_lease a) (a_out_acks a) (a_sess a)) act
        end in
      take_cloves dest set index act r
  | BAck acks :: r =>
      let act :=
        match nget dest act with
        | None => act
        | Some a =>
            let known := existsb (fun p => pair_mem p (a_out_acks a)) acks in
            nput dest (mkActive (a_in_acks a) (a_received a) (a_sent a)
                         (if known then None else a_lease a)
                         (fold_left (fun l p => pair_del p l) acks (a_out_acks a)) (a_sess a)) act
        end in
      take_cloves dest set index act r
  | _ :: r => take_cloves dest set index act r
  end.

(** mod.rs:538-823 [decrypt].  The caller (destination/mod.rs:600-608) has checked that the
    payload is longer than 12 bytes; on shorter ones [garlic_tag] panics. *)
Definition mgr_decrypt (c : rcrypt) (lease_owner : bytes -> option (N * N)) (now : N)
  (newpriv : nat -> bytes) (m : manager) (message : bytes) : manager * res (list clove) :=
  match garlic_tag message with
  | None => (m, Panic)
  | Some tag =>
      let finish (m : manager) (dest set index : N) (payload : bytes) :=
        match parse_garlic payload with
        | None => (m, Err EMalformed)
        | Some blocks =>
            let '(act, l) := take_cloves dest set index (m_active m) blocks in
            (mgr_with m act (m_pending m) (m_tags m), Ok l)
        end in
      match nget tag (m_tags m) with
      | None =>
          match create_inbound c (m_kc m) message with
          | Err e => (m, Err e)
          | Panic => (m, Panic)
          | Ok (i, payload) =>
              match parse_garlic payload with
              | None => (m, Err EMalformed)
              | Some blocks =>
                  match ns_remote lease_owner blocks with
                  | Err e => (m, Err e)
                  | Panic => (m, Panic)
                  | Ok dest =>
                      let pend := match nget dest (m_pending m) with
                                  | None => nput dest (pend_inbound now i) (m_pending m)
                                  | Some _ => m_pending m
                                  end in
                      finish (mgr_with m (m_active m) pend (m_tags m)) dest 0 0 payload
                  end
              end
          end
      | Some dest =>
          let g := ndel tag (m_tags m) in
          match nget dest (m_active m) with
          | Some a =>
              match sess_decrypt c dest now newpriv g (a_sess a) tag message with
              | (g, s, Ok (set, index, payload)) =>
                  let a' := mkActive (a_in_acks a) now (a_sent a) (a_lease a) (a_out_acks a) s in
                  finish (mgr_with m (nput dest a' (m_active m)) (m_pending m) g) dest set index payload
              | (g, s, Err e) =>
                  let a' := mkActive (a_in_acks a) (a_received a) (a_sent a) (a_lease a) (a_out_acks a) s in
                  let m' := mgr_with m (nput dest a' (m_active m)) (m_pending m) g in
                  match e with
                  | ETerminated => (mgr_remove m' dest, Err ETerminated)
                  | _ => (m', Err e)
                  end
              | (g, s, Panic) =>
                  let a' := mkActive (a_in_acks a) (a_received a) (a_sent a) (a_lease a) (a_out_acks a) s in
                  (mgr_with m (nput dest a' (m_active m)) (m_pending m) g, Panic)
              end
          | None =>
              match nget dest (m_pending m) with
              | None => (mgr_with m (m_active m) (m_pending m) g, Err EInvalidState)
              | Some p =>
                  match advance_inbound c dest tag message g p with
                  | (g, p', Ok (PvReturn payload set index)) =>
                      finish (mgr_with m (m_active m) (nput dest p' (m_pending m)) g) dest set index payload
                  | (g, p', Ok (PvCreate payload s set index)) =>
                      finish (mgr_with m (nput dest (active_new now s) (m_active m))
                                       (ndel dest (m_pending m)) g) dest set index payload
                  | (g, p', Ok (PvSend _)) => (mgr_with m (m_active m) (nput dest p' (m_pending m)) g, Panic)
                  | (g, p', Err e) => (mgr_with m (m_active m) (nput dest p' (m_pending m)) g, Err e)
                  | (g, p', Panic) => (mgr_with m (m_active m) (nput dest p' (m_pending m)) g, Panic)
                  end
              end
          end
      end
  end.

(** mod.rs:857-877, the removal of idle sessions; no event is queued for them. *)
Definition idle (now : N) (a : active) : bool :=
  (ES_RECV_TIMEOUT <? now - a_received a) && (ES_SEND_TIMEOUT <? now - a_sent a).

(** mod.rs:830-880 [maintain].  Garlic tags of purged pending sessions stay in the map. *)
Definition mgr_maintain (now : N) (m : manager) : manager :=
  let pend := filter (fun x => negb (PENDING_MAX_AGE <? now - p_created (snd x))) (m_pending m) in
  let gone := filter (fun x => idle now (snd x)) (m_active m) in
  let kept := filter (fun x => negb (idle now (snd x))) (m_active m) in
  let tags := fold_left (fun g x => sess_destroy g (a_sess (snd x))) gone (m_tags m) in
  let '(tags, act) :=
    fold_left (fun (acc : nmap N * nmap active) x =>
                 let '(g, s) := sess_maintain now (fst acc) (a_sess (snd x)) in
                 (g, snd acc ++ [(fst x, mkActive (a_in_acks (snd x)) (a_received (snd x)) (a_sent (snd x))
                                           (a_lease (snd x)) (a_out_acks (snd x)) s)]))
              kept (tags, []) in
  mgr_with m act pend tags.

(** mod.rs:285-332 [publish_local_lease_set], called when the publish timer fires *)
Definition mgr_publish (c : rcrypt) (d : draw) (m : manager) (dest : N) : manager * option bytes :=
  match nget dest (m_active m) with
  | None => (m, None)
  | Some a =>
      match a_out_acks a, a_lease a with
      | [], Some _ =>
          let store := store_clove (dr_mid2 d) (dr_exp d) (m_local m) (m_lease m) in
          let '(s, r) := sess_encrypt c (a_sess a) [store; BAckRequest] (dr_priv d) in
          match r with
          | Ok (set, index, msg) =>
              (mgr_with m (nput dest (mkActive (a_in_acks a) (a_received a) (a_sent a) (a_lease a)
                                        (pair_add (set, index) (a_out_acks a)) s) (m_active m))
                        (m_pending m) (m_tags m), Some (with_len msg))
          | _ =>
              (mgr_with m (nput dest (mkActive (a_in_acks a) (a_received a) (a_sent a) (a_lease a)
                                        (a_out_acks a) s) (m_active m))
                        (m_pending m) (m_tags m), None)
          end
      | _, _ => (m, None)
      end
  end.
