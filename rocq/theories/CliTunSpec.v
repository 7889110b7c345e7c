(** What server and client tunnels should do, said about starts and about events and what is seen. *)
From Coq Require Import List NArith Bool.
From Verif Require Import CliTunModel.
Import ListNotations.
Open Scope N_scope.

(** A life of an installation: starts one after the other, each with its own configuration (the
    same paths or others), answers of the router and writes; the disk is what is left. *)
Fixpoint life (utf8 : str -> bool) (d : disk) (starts : list (list (server * (list (option str) * writing))))
  : list (list running) * disk :=
  match starts with
  | [] => ([], d)
  | l :: rest =>
      let '(rs, d1) := start_servers utf8 d l in
      let '(all, d2) := life utf8 d1 rest in (rs :: all, d2)
  end.

(** the connections that arrived, and those that are over *)
Fixpoint arrived (evs : list event) : list N :=
  match evs with [] => [] | EConn _ c :: r => c :: arrived r | _ :: r => arrived r end.
Fixpoint over (o : list seen) : list N :=
  match o with
  | [] => []
  | Refused c :: r | Reset c :: r | Closed c :: r => c :: over r
  | Joined _ _ _ :: r => over r
  end.
(** the connections a tunnel holds *)
Definition held (p : phase) : list N :=
  match p with
  | PBind | PSleep => []
  | PListen w => w
  | PConnect c w | PCopy c w => c :: w
  end.
(** the port at the destination: the configured one, or 0 *)
Definition remote_port (t : client) : N := match t_dport t with Some p => p | None => 0 end.
(** nothing fails *)
Definition fine (ev : event) : Prop :=
  match ev with EBind _ ok | EStream _ ok | EEnd _ ok => ok = true | _ => True end.
