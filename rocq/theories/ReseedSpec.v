(** * What an SU3 file is, and which archive names are harmless *)
From Coq Require Import List NArith Bool Arith.
From Verif Require Import Bytes ReseedModel.
Import ListNotations.
Open Scope N_scope.

(** An SU3 file as the I2P specification has it: the bytes that mean nothing are in
    [f_unused] (six single ones, then twelve). *)
Record su3file := mkFile {
  f_sig_kind : N; f_file_kind : N; f_content_kind : N;
  f_version : list N; f_signer : list N; f_content : list N; f_signature : list N;
  f_u1 : N; f_fmt : N; f_u2 : N; f_u3 : N; f_u4 : N; f_u5 : N; f_u12 : list N }.

(** Everything but the signature: this is what a signer signs. *)
Definition signed_part (x : su3file) : list N :=
  [73; 50; 80; 115; 117; 51] ++ [f_u1 x; f_fmt x] ++
  be_bytes 2 (f_sig_kind x) ++ be_bytes 2 (N.of_nat (length (f_signature x))) ++
  [f_u2 x; N.of_nat (length (f_version x)); f_u3 x; N.of_nat (length (f_signer x))] ++
  be_bytes 8 (N.of_nat (length (f_content x))) ++
  [f_u4 x; f_file_kind x; f_u5 x; f_content_kind x] ++
  f_u12 x ++ f_version x ++ f_signer x ++ f_content x.

Definition file_bytes (x : su3file) : list N := signed_part x ++ f_signature x.

Definition file_ok (x : su3file) : Prop :=
  (f_sig_kind x <= 6 \/ f_sig_kind x = 8) /\ f_file_kind x <= 6 /\ f_content_kind x <= 5 /\
  N.of_nat (length (f_version x)) < 256 /\ N.of_nat (length (f_signer x)) < 256 /\
  N.of_nat (length (f_content x)) < 2 ^ 64 /\ N.of_nat (length (f_signature x)) < 65536 /\
  length (f_u12 x) = 12%nat.

(** A name with its slashes: [p0/p1/.../pn] *)
Fixpoint slashed (ps : list (list N)) : list N :=
  match ps with
  | [] => []
  | [p] => p
  | p :: t => p ++ 47 :: slashed t
  end.

(** How deep below the start a path of pieces leads: [None] once it was above. *)
Definition move (d : option nat) (p : list N) : option nat :=
  match d with
  | None => None
  | Some n =>
      if beq p [] || beq p [46] then Some n
      else if beq p [46; 46] then match n with O => None | S m => Some m end
      else Some (S n)
  end.

(** A name that stays below the directory it is put in: relative, and at no point above. *)
Definition harmless (s : str) : Prop :=
  exists ps, s = slashed ps /\ (forall p, In p ps -> ~ In 47 p) /\
    (s = [] \/ hd [] ps <> []) /\ fold_left move ps (Some O) <> None.

(** The entries of an archive that are routers: plain files that could be read, with a
    harmless name. *)
Definition is_router (z : zentry) (x : rinfo) : Prop :=
  z_file z = true /\ z_data z = Some (snd x) /\ z_name z = fst x /\
  harmless (fst x) /\ ~ In 0 (fst x).

(** The answers of a server that are of no use. *)
Definition useless unzip check (r : reply) : Prop :=
  match r with Body b => snd (parse_reseed unzip check b false) = Bad | _ => True end.

(** The routers of an archive, in order. *)
Inductive routers : list zentry -> list rinfo -> Prop :=
| routers_nil : routers [] []
| routers_take : forall z x zs l, is_router z x -> routers zs l -> routers (z :: zs) (x :: l)
| routers_skip : forall z zs l, (forall x, ~ is_router z x) -> routers zs l -> routers (z :: zs) l.
