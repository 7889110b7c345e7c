(** What a streaming packet means, for the codec properties. *)
From Coq Require Import List NArith Bool.
From Verif Require Import Bytes PrimModel PrimSpec PacketModel.
Import ListNotations.
Open Scope N_scope.

Definition u16 (x : N) : Prop := x < 2 ^ 16.
Definition u32 (x : N) : Prop := x < 2 ^ 32.
Definition opt_all {A} (P : A -> Prop) (o : option A) : Prop :=
  match o with Some a => P a | None => True end.

(** A builder whose fields have the Rust types and whose NACK list fits the count byte. *)
Definition builder_ok (e : ext) (b : builder) : Prop :=
  opt_all u32 (b_send b) /\ u32 (b_recv b) /\ u32 (b_seq b) /\ u32 (b_ack b) /\
  opt_all (fun l => (length l <= 255)%nat /\ Forall u32 l) (b_nacks b) /\ b_resend b < 256 /\
  opt_all u16 (b_delay b) /\ opt_all u16 (b_max b) /\ opt_all (dest_ok e) (b_dest b).

(** [p] says what the builder [b] was asked to say (apart from the signature). *)
Definition says (p : packet) (b : builder) : Prop :=
  Some (p_send p) = b_send b /\ p_recv p = b_recv b /\ p_seq p = b_seq b /\ p_ack p = b_ack b /\
  p_nacks p = match b_nacks b with Some l => l | None => [] end /\ p_resend p = b_resend b /\
  p_payload p = match b_payload b with Some x => x | None => [] end /\
  f_syn (p_flags p) = b_syn b /\ f_close (p_flags p) = b_close b /\
  f_reset (p_flags p) = b_reset b /\ f_echo (p_flags p) = b_echo b /\
  f_no_ack (p_flags p) = b_no_ack b /\
  f_dest (p_flags p) = b_dest b /\ f_delay (p_flags p) = b_delay b /\
  f_max (p_flags p) = b_max b /\ f_offline (p_flags p) = None.
