(** What the NTCP2 session properties talk about. *)
From Coq Require Import List NArith Bool.
From Verif Require Import Bytes I2npModel I2npSpec I2cpModel I2cpSpec Ntcp2Model.
Import ListNotations.
Open Scope N_scope.

(** What is assumed of ChaCha20-Poly1305: decryption undoes encryption with the same key,
    nonce and associated data, and the tag is 16 bytes. *)
Definition aead_ok (c : ncrypt) : Prop :=
  (forall k n ad p, open c k n ad (seal c k n ad p) = Some p) /\
  (forall k n ad p, length (seal c k n ad p) = (length p + 16)%nat).

(** What the kernel may answer: at most what it was offered. *)
Definition nkernel_can (w : nwriter) (r : wresult) : Prop :=
  match nw_state w, r with
  | NWSize off s _, WrOk n => (n <= length s - off)%nat
  | NWMsg off m, WrOk n => (n <= length m - off)%nat
  | _, _ => True
  end.

(** [nwrote c w0 sent written w]: a session that started as [w0] was asked to send the
    serialized messages [sent], in that order and at any time, has handed [written] to the
    kernel and is in state [w]. *)
Inductive nwrote (c : ncrypt) (w0 : nwriter) : list (list N) -> list N -> nwriter -> Prop :=
| nwrote_start : nwrote c w0 [] [] w0
| nwrote_send q o w m : nwrote c w0 q o w -> nwrote c w0 (q ++ [m]) o (nw_send w m)
| nwrote_iter q o w r : nwrote c w0 q o w -> nkernel_can w r ->
    nwrote c w0 q (o ++ snd (fst (nw_iter c w r))) (fst (fst (nw_iter c w r))).

Definition nidle (w : nwriter) : Prop := nw_queue w = [] /\ nw_state w = NWGet.

(** I2NP messages that fit an NTCP2 frame: 1 byte block type, 11 bytes I2NP header, 16 bytes
    tag, the whole at most 65535 bytes. *)
Definition fits_frame (m : message) : Prop :=
  m_id m < 2 ^ 32 /\ m_expiration m < 1000000000 * 2 ^ 32 /\
  (0 < length (m_payload m))%nat /\ N.of_nat (length (m_payload m)) <= 65507.

(** The message as the other side sees it: the short header carries whole seconds. *)
Definition received (m : message) : message :=
  mkMsg (m_type m) (m_id m) (whole_seconds (m_expiration m)) (m_payload m).

Definition prefix_of {A} (a b : list A) : Prop := exists t, b = a ++ t.

(** The blocks of an NTCP2 frame as https://geti2p.net/spec/ntcp2 writes them: one byte type,
    two bytes size, data. *)
Definition ser_block (t : N) (data : list N) : list N :=
  [t] ++ be_bytes 2 (N.of_nat (length data)) ++ data.
Definition wire_block (b : nblock) : list N :=
  match b with
  | BDateTime t => ser_block 0 (be_bytes 4 t)
  | BOptions a b c d td rd tl rl =>
      ser_block 1 ([a; b; c; d] ++ be_bytes 2 td ++ be_bytes 2 rd ++ be_bytes 2 tl ++ be_bytes 2 rl)
  | BRouterInfo f info => ser_block 2 ([if f then 1 else 0] ++ info)
  | BI2np m =>
      ser_block 3 ([mtype_u8 (m_type m)] ++ be_bytes 4 (m_id m) ++
                   be_bytes 4 (m_expiration m / 1000000000) ++ m_payload m)
  | BTermination v r => ser_block 4 (be_bytes 8 v ++ [r])
  | BPadding p => ser_block 254 p
  end.
Definition block_ok (b : nblock) : Prop :=
  match b with
  | BDateTime t => t < 2 ^ 32
  | BOptions a b c d td rd tl rl =>
      a < 256 /\ b < 256 /\ c < 256 /\ d < 256 /\
      td < 65536 /\ rd < 65536 /\ tl < 65536 /\ rl < 65536
  | BRouterInfo _ info => N.of_nat (length info) < 65535
  | BI2np m =>
      m_id m < 2 ^ 32 /\ m_expiration m < 1000000000 * 2 ^ 32 /\
      m_expiration m mod 1000000000 = 0 /\
      (0 < length (m_payload m))%nat /\ N.of_nat (length (m_payload m)) <= 65526
  | BTermination v r => v < 2 ^ 64 /\ r < 256
  | BPadding p => N.of_nat (length p) < 65536
  end.

(** Successive encryptions with one cipher instance. *)
Fixpoint encrypt_all (c : ncrypt) (x : chacha) (ps : list (list N)) : list (option (list N)) * chacha :=
  match ps with
  | [] => ([], x)
  | p :: t =>
      let '(o, x') := cc_encrypt c x p in
      let '(os, x'') := encrypt_all c x' t in (o :: os, x'')
  end.
Fixpoint decrypt_all (c : ncrypt) (x : chacha) (cs : list (list N)) : list (option (list N)) * chacha :=
  match cs with
  | [] => ([], x)
  | p :: t =>
      let '(o, x') := cc_decrypt c x p in
      let '(os, x'') := decrypt_all c x' t in (o :: os, x'')
  end.
Definition with_nonce (key : list N) (n : N) : chacha := mkChacha key n.

(** Successive frame lengths through the obfuscation of one side and the deobfuscation of the
    other. *)
Fixpoint lengths_through (c : ncrypt) (sender receiver : sipctx) (ls : list N) : list N :=
  match ls with
  | [] => []
  | l :: t =>
      let '(o, sender') := sip_obfuscate c sender l in
      let '(l', receiver') := sip_deobfuscate c receiver o in
      l' :: lengths_through c sender' receiver' t
  end.

(** A stand-in for the primitives, for the examples. *)
Definition toy_tag (k n : list N) : list N := firstn 16 (n ++ k ++ repeat 0 16).
Definition toy_crypt : ncrypt :=
  mkNcrypt (fun k1 k2 iv => (k1 * 31 + k2 * 17 + be_val iv * 7 + 12345) mod 2 ^ 64)
    (fun k m => firstn 32 (m ++ k ++ repeat 7 32))
    (fun k n _ p => p ++ toy_tag k n)
    (fun k n _ ct =>
       let p := firstn (length ct - 16) ct in
       if beq ct (p ++ toy_tag k n) then Some p else None).
