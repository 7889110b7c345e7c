(** Specification for C30, C31, C41, C45. *)
From Coq Require Import List NArith Bool.
From Verif Require Import Bytes PrimModel EncModel.
Import ListNotations.
Open Scope N_scope.

(** Two gzip streams that differ only in the header fields MTIME (bytes 4-7) and OS (byte 9). *)
Definition same_stream (a b : list N) : Prop :=
  length a = length b /\
  forall i, ~ (4 <= i <= 7)%nat -> i <> 9%nat -> nth i a 0 = nth i b 0.
(** What is assumed of the gzip implementation: streams have the ten-byte header, and the
    fields MTIME and OS do not influence decompression (RFC 1952). *)
Definition gzip_ok (g : gzip) : Prop :=
  forall d c, gz_compress g d = Some c ->
    (10 <= length c)%nat /\ forall c', same_stream c c' -> gz_decompress g c' = Some d.
