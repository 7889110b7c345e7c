(** Models of the base64/base32 helpers of /repo/emissary-core/src/crypto/mod.rs, of the I2CP
    gzip envelope (i2cp/payload.rs) and of SAM datagrams (sam/protocol/datagram/mod.rs,
    sam/parser.rs). *)
From Coq Require Import List NArith Bool Arith.
From Verif Require Import Bytes PrimModel.
Import ListNotations.
Open Scope N_scope.

(** ** Radix encodings: the [data_encoding] crate, as configured in crypto/mod.rs:45-59.
    Most significant bit first; [check_trailing_bits] is on by default. *)
Fixpoint bits (w : nat) (n : N) : list bool :=
  match w with
  | O => []
  | S w' => N.testbit n (N.of_nat w') :: bits w' n
  end.
Fixpoint val_from (acc : N) (l : list bool) : N :=
  match l with
  | [] => acc
  | b :: t => val_from (2 * acc + (if b then 1 else 0)) t
  end.
Definition val (l : list bool) : N := val_from 0 l.

(** Groups of [k] bits, the last one filled up with zeros. *)
Fixpoint groups (fuel k : nat) (l : list bool) : list N :=
  match fuel, l with
  | O, _ | _, [] => []
  | S f, _ =>
      val (firstn k (l ++ repeat false (k - length l))) :: groups f k (skipn k l)
  end.
Definition radix_encode (k : nat) (l : list N) : list N :=
  let b := flat_map (bits 8) l in groups (length b) k b.
(** Symbols back to bytes: the number of left-over bits must be smaller than a symbol, and they
    must be zero. *)
Definition radix_decode (k : nat) (s : list N) : option (list N) :=
  let b := flat_map (bits k) s in
  let whole := (8 * (length b / 8))%nat in
  if (length b mod 8 <? k)%nat && forallb negb (skipn whole b)
  then Some (groups (length b) 8 (firstn whole b))
  else None.

(** crypto/mod.rs:46-51 and 53-57: the symbol tables *)
Definition alpha64 : bytes :=
  [65;66;67;68;69;70;71;72;73;74;75;76;77;78;79;80;81;82;83;84;85;86;87;88;89;90;
   97;98;99;100;101;102;103;104;105;106;107;108;109;110;111;112;113;114;115;116;117;118;119;
   120;121;122;48;49;50;51;52;53;54;55;56;57;45;126].
Definition alpha32 : bytes :=
  [97;98;99;100;101;102;103;104;105;106;107;108;109;110;111;112;113;114;115;116;117;118;119;
   120;121;122;50;51;52;53;54;55].
Definition sym (alpha : bytes) (v : N) : N := nth (N.to_nat v) alpha 0.
Fixpoint index_of (alpha : bytes) (c : N) : option N :=
  match alpha with
  | [] => None
  | x :: t => if x =? c then Some 0 else option_map N.succ (index_of t c)
  end.
Fixpoint map_opt {A B} (f : A -> option B) (l : list A) : option (list B) :=
  match l with
  | [] => Some []
  | x :: t => match f x, map_opt f t with Some y, Some r => Some (y :: r) | _, _ => None end
  end.

(** crypto/mod.rs:70-79 [base32_encode], [base32_decode] (no padding) *)
Definition base32_encode (l : bytes) : bytes := map (sym alpha32) (radix_encode 5 l).
Definition base32_decode (s : bytes) : option bytes :=
  match map_opt (index_of alpha32) s with Some v => radix_decode 5 v | None => None end.

Definition pad : N := 61.
(** crypto/mod.rs:60-63 [base64_encode]: padded to whole blocks of four symbols *)
Definition base64_encode (l : bytes) : bytes :=
  let s := map (sym alpha64) (radix_encode 6 l) in
  s ++ repeat pad ((4 - length s mod 4) mod 4).
(** crypto/mod.rs:65-68 [base64_decode].  As documented by the crate, a padded encoding decodes
    block by block, so that concatenations of padded encodings are accepted as well. *)
Definition strip_pad (b : bytes) : bytes :=
  match b with
  | [x; y; z; w] =>
      if w =? pad then
        if z =? pad then
          if y =? pad then if x =? pad then [] else [x] else [x; y]
        else [x; y; z]
      else b
  | _ => b
  end.
Definition decode_block (b : bytes) : option bytes :=
  let s := strip_pad b in
  if (length s <? 2)%nat then None
  else match map_opt (index_of alpha64) s with Some v => radix_decode 6 v | None => None end.
Fixpoint base64_decode_fuel (fuel : nat) (s : bytes) : option bytes :=
  match fuel, s with
  | _, [] => Some []
  | S f, x :: y :: z :: w :: r =>
      match decode_block [x; y; z; w], base64_decode_fuel f r with
      | Some a, Some b => Some (a ++ b)
      | _, _ => None
      end
  | _, _ => None
  end.
Definition base64_decode (s : bytes) : option bytes := base64_decode_fuel (length s) s.

(** primitives/router_identity.rs:62-95: a [RouterId] is the base64 form of its bytes; [to_vec]
    expects decoding to succeed ([None] = panic). *)
Definition router_id_from (raw : bytes) : bytes := base64_encode raw.
Definition router_id_to_vec (id : bytes) : option bytes := base64_decode id.

(** ** i2cp/payload.rs *)
(** protocol.rs:20-54 *)
Inductive protocol : Type := Streaming | Datagram | Anonymous.
Definition protocol_of (n : N) : option protocol :=
  if n =? 6 then Some Streaming
  else if n =? 17 then Some Datagram
  else if n =? 18 then Some Anonymous
  else None.
Definition protocol_u8 (p : protocol) : N :=
  match p with Streaming => 6 | Datagram => 17 | Anonymous => 18 end.

(** The [Runtime]'s gzip functions. *)
Record gzip : Type := mkGzip {
  gz_compress : bytes -> option bytes;
  gz_decompress : bytes -> option bytes
}.

Definition set_range (at_ : nat) (new l : bytes) : bytes :=
  firstn at_ l ++ new ++ skipn (at_ + length new) l.

(** payload.rs:81-89 [build].  Outer [None]: gzip refused.  Inner [None]: panic (a compressed
    stream of less than ten bytes). *)
Definition payload_build (g : gzip) (src dst : N) (p : protocol) (data : bytes)
  : option (option bytes) :=
  match gz_compress g data with
  | None => None
  | Some c =>
      if (length c <? 10)%nat then Some None
      else Some (Some (set_range 9 [protocol_u8 p]
                        (set_range 6 (be_bytes 2 dst) (set_range 4 (be_bytes 2 src) c))))
  end.

(** payload.rs:95-107, 134-144 *)
Record i2cp_payload : Type := mkPayload {
  ip_src : N; ip_dst : N; ip_protocol : protocol; ip_data : bytes
}.
(** payload.rs:111-128 [decompress] *)
Definition payload_decompress (g : gzip) (w : bytes) : option i2cp_payload :=
  if (length w <? 10)%nat then None
  else match protocol_of (nth 9 w 0), gz_decompress g w with
       | Some p, Some d =>
           Some (mkPayload (be_val (firstn 2 (skipn 4 w))) (be_val (firstn 2 (skipn 6 w))) p d)
       | _, _ => None
       end.
(** payload.rs:148-164 [I2cpParameters::new]: (src, dst, protocol) *)
Definition payload_parameters (w : bytes) : option (N * N * protocol) :=
  if (length w <? 10)%nat then None
  else match protocol_of (nth 9 w 0) with
       | Some p => Some (be_val (firstn 2 (skipn 4 w)), be_val (firstn 2 (skipn 6 w)), p)
       | None => None
       end.

(** ** Datagrams *)
(** Decimal printing, as done by [format!]. *)
Fixpoint show_dec_fuel (fuel : nat) (n : N) (acc : bytes) : bytes :=
  match fuel with
  | O => acc
  | S f =>
      let acc' := (48 + n mod 10) :: acc in
      if n / 10 =? 0 then acc' else show_dec_fuel f (n / 10) acc'
  end.
Definition show_dec (n : N) : bytes := show_dec_fuel 20 n [].

Definition s_from_port : bytes := [32; 70; 82; 79; 77; 95; 80; 79; 82; 84; 61].
Definition s_to_port : bytes := [32; 84; 79; 95; 80; 79; 82; 84; 61].

Section WithExt.
Variable e : ext.

(** datagram/mod.rs:78-95 [make_datagram] for a repliable session *)
Definition make_datagram (priv : bytes) (own : destination) (data : bytes) : bytes :=
  ser_dest own ++ ed_sign e priv data ++ data.

Inductive dgram_result : Type :=
| DgDelivered (port : N) (message : bytes)
| DgInvalidData | DgInvalidState | DgPanic.
(** datagram/mod.rs:98-143 [on_datagram]; [port] is the session's PORT option.  The channel to
    the client is [try_send]: delivery may also be lost, which is not modelled. *)
Definition on_datagram (port : option bytes) (p : i2cp_payload) : dgram_result :=
  match ip_protocol p with
  | Datagram =>
      match (d <- parse_dest e ;; _ <- take 64 ;; ret d) (ip_data p) with
      | None => DgInvalidData
      | Some (d, rest) =>
          match port with
          | None => DgInvalidState
          | Some s =>
              match parse_dec 65535 s with
              | None => DgPanic
              | Some n =>
                  DgDelivered n
                    (base64_encode (ser_dest d) ++ s_from_port ++ show_dec (ip_dst p) ++
                     s_to_port ++ show_dec (ip_src p) ++ [10] ++ rest)
              end
          end
      end
  | Anonymous =>
      match port with
      | None => DgInvalidState
      | Some s => match parse_dec 65535 s with
                  | None => DgPanic
                  | Some n => DgDelivered n (ip_data p)
                  end
      end
  | Streaming => DgPanic
  end.

Fixpoint position (c : N) (l : bytes) : option nat :=
  match l with
  | [] => None
  | x :: t => if x =? c then Some O else option_map S (position c t)
  end.
(** sam/parser.rs:639-669 [Datagram::parse]: (session id, destination, datagram).
    Outer [None]: panic ([input[4..]] out of range). *)
Definition dgram_parse (i : bytes) : option (option (bytes * destination * bytes)) :=
  if (length i <? 4)%nat then None
  else Some
    match position 32 (skipn 4 i) with
    | None => None
    | Some ne =>
        let after := skipn (ne + 5) i in
        match position 10 after with
        | None => None
        | Some ds =>
            let nick := firstn ne (skipn 4 i) in
            let name := firstn ds after in
            if utf8_ok nick && utf8_ok name then
              match base64_decode name with
              | None => None
              | Some raw =>
                  match parse_dest e raw with
                  | Some (d, _) => Some (nick, d, skipn (ne + ds + 6) i)
                  | None => None
                  end
              end
            else None
        end
    end.
End WithExt.
