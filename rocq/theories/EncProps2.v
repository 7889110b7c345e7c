(** The line a client gets before a repliable datagram (C31), in the characters the client sees. *)
From Coq Require Import List NArith Bool Ascii String.
From Verif Require Import ListUtil Bytes PrimModel PrimSpec PrimProofs PrimProps EncModel EncSpec EncProofs EncProps SamProps PacketProps.
Import ListNotations.
Open Scope N_scope.

Definition text (s : string) : bytes := map N_of_ascii (list_ascii_of_string s).

(** The sender's name, two ports in decimal and a newline, then the data.  Missing from the full
    claim: the ports are swapped ([C31_refuted_ports_swapped]) and the signature is not checked. *)
Theorem C31_header_line_partial :
  forall e, ext_ok e -> forall priv own data src dst port n,
  dest_ok e own -> bytes_ok (ser_dest own) -> parse_dec 65535 port = Some n -> src < 65536 -> dst < 65536 ->
  exists a b,
    on_datagram e (Some port) (mkPayload src dst Datagram (make_datagram e priv own data)) =
      DgDelivered n (base64_encode (ser_dest own) ++ text " FROM_PORT=" ++ a ++ text " TO_PORT=" ++ b ++ [10] ++ data) /\
    parse_dec 65535 a = Some dst /\ parse_dec 65535 b = Some src.
Proof.
  intros e He priv own data src dst port n Hd Hb Hp Hs Ht.
  exists (show_dec dst), (show_dec src). split; [|split; apply show_dec_parses; assumption].
  unfold on_datagram, make_datagram. cbn [ip_protocol ip_data ip_src ip_dst].
  pstep ltac:(apply Hd).
  pstep ltac:(apply take_app; apply (sign_len _ He)).
  cbn [ret]. rewrite Hp. reflexivity.
Qed.
Print Assumptions C31_header_line_partial.
Example C31_header_line_ex : exists m,
  on_datagram toy (Some [56; 48]) (mkPayload 7 8 Datagram (make_datagram toy [1] toy_dest [5])) =
    DgDelivered 80 (base64_encode (ser_dest toy_dest) ++ text " FROM_PORT=8 TO_PORT=7" ++ m).
Proof. exists [10; 5]. vm_compute. reflexivity. Qed.
