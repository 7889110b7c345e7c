(** Model of what the router publishes about itself: router info made at the start
    (/repo/emissary-core/src/router/mod.rs:156-202, primitives/router_info.rs:68-134,
    transport/{ntcp2,ssu2}/mod.rs [initialize]) and the transport manager's part
    (transport/mod.rs: [add_external_address], [shutdown], publishing in [poll]).

    Addresses and ports are numbers, times are seconds, capabilities are character codes.  The
    serialisation of router infos is PrimModel's; costs and keys of addresses are left out. *)
From Coq Require Import List NArith Bool.
Import ListNotations.
Open Scope N_scope.

Definition str : Type := list N.

(** What a router info says about a transport: no host and port (the "unpublished" addresses have
    neither in their options, router_address.rs:95-110, 133-158), or a host and a port. *)
Inductive addr : Type := Hidden | Public (host port : N).

(** The configuration of a transport, and the port its socket was really bound to. *)
Record tconf : Type := mkT { t_port : N; t_host : option N; t_publish : bool; t_bound : N }.

(** transport/ntcp2/mod.rs:180-195, transport/ssu2/mod.rs:164-187 *)
Definition first_addr (t : tconf) : addr :=
  match t_publish t, t_host t with
  | true, Some h => Public h (t_bound t)
  | _, _ => Hidden
  end.

Definition cG : str := [71].
Definition cGR : str := [71; 82].
Definition cXf : str := [88; 102].
Definition cL : str := [76].
(** primitives/router_info.rs:99-108 *)
Definition first_caps (no_transit : bool) (caps : option str) (floodfill : bool) : str :=
  if no_transit then cG
  else match caps with
       | Some c => c
       | None => if floodfill then cXf else cL
       end.

Record config : Type := mkC {
  c_ntcp2 : option tconf; c_ssu2 : option tconf; c_caps : option str; c_floodfill : bool;
  c_no_transit : bool }.

Record state : Type := mkS {
  s_ntcp2 : option tconf; s_ssu2 : option tconf;
  s_external : option N;
  s_addr1 : option addr; s_addr2 : option addr;
  s_caps : str;
  s_shutting : bool; s_no_transit : bool;
  s_timer : N }.

(** a published router info *)
Record info : Type := mkI { i_time : N; i_ntcp2 : option addr; i_ssu2 : option addr; i_caps : str }.

(** router/mod.rs:156-202; transport/mod.rs:520-543.  [None]: no transport (173-179). *)
Definition start (c : config) (now : N) : option state :=
  match c_ntcp2 c, c_ssu2 c with
  | None, None => None
  | _, _ =>
      Some (mkS (c_ntcp2 c) (c_ssu2 c) None
        (option_map first_addr (c_ntcp2 c)) (option_map first_addr (c_ssu2 c))
        (first_caps (c_no_transit c) (c_caps c) (c_floodfill c)) false (c_no_transit c) (now + 10))
  end.

(** transport/mod.rs:654-680, 682-708 *)
Definition new_addr (t : option tconf) (a : N) (old : option addr) : option addr :=
  match t with
  | Some (mkT port None true _) => Some (Public a port)
  | _ => old
  end.
(** transport/mod.rs:624-709 [add_external_address] *)
Definition add_external (s : state) (a : N) : state :=
  let set := mkS (s_ntcp2 s) (s_ssu2 s) (Some a)
               (new_addr (s_ntcp2 s) a (s_addr1 s)) (new_addr (s_ssu2 s) a (s_addr2 s))
               (s_caps s) (s_shutting s) (s_no_transit s) (s_timer s) in
  match s_external s with
  | None => set
  | Some b => if negb (b =? a) then set else s
  end.

(** transport/mod.rs:61 *)
Definition REPUBLISH : N := 15 * 60.
(** transport/mod.rs:953-982 *)
Definition publish (s : state) (now : N) : state * list info :=
  if s_timer s <=? now then
    let caps := if s_shutting s || s_no_transit s then cGR else s_caps s in
    (mkS (s_ntcp2 s) (s_ssu2 s) (s_external s) (s_addr1 s) (s_addr2 s) caps
         (s_shutting s) (s_no_transit s) (now + REPUBLISH),
     [mkI now (s_addr1 s) (s_addr2 s) caps])
  else (s, []).

Inductive op : Type :=
| OExternal (a : N)
| OShutdown
| OPoll (now : N).

Definition step (s : state) (o : op) : state * list info :=
  match o with
  | OExternal a => (add_external s a, [])
  (** transport/mod.rs:619-621 *)
  | OShutdown => (mkS (s_ntcp2 s) (s_ssu2 s) (s_external s) (s_addr1 s) (s_addr2 s) (s_caps s)
                      true (s_no_transit s) (s_timer s), [])
  | OPoll now => publish s now
  end.
Fixpoint run (s : state) (ops : list op) : state * list info :=
  match ops with
  | [] => (s, [])
  | o :: rest => let '(s1, a) := step s o in let '(s2, b) := run s1 rest in (s2, a ++ b)
  end.
