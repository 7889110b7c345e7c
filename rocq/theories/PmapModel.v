(** Model of the port mapper: /repo/emissary-cli/src/port_mapper/{mod,nat_pmp,upnp}.rs.

    The gateway's answers are parameters.  Addresses are numbers.  Times are seconds. *)
From Coq Require Import List NArith Bool.
Import ListNotations.
Open Scope N_scope.

Inductive proto : Type := TCP | UDP.
Inductive ip : Type := V4 (a : N) | V6 (a : N).
(** natpmp's [Response], as far as it is looked at *)
Inductive response : Type := RTcp | RUdp | RGateway (a : N).

(** An operation on the gateway: the future that sends the request and reads the answer.  It is
    ready after [k] whole windows of five seconds, with a value or an error ([None]), or never. *)
Inductive fut (A : Type) : Type := Never | After (k : nat) (r : option A).
Arguments Never {A}. Arguments After {A} k r.

(** nat_pmp.rs:92-111, upnp.rs:95-114 [with_retries_and_timeout]; NUM_RETRIES = 3 (37, 48).  The
    same future is polled in every round.  A timeout leaves it where it was; once it has given an
    error it is complete, and polling a completed async block panics. *)
Inductive tried (A : Type) : Type := Got (a : A) | GaveUp | Crashed.
Arguments Got {A} a. Arguments GaveUp {A}. Arguments Crashed {A}.
Fixpoint with_retries {A} (n : nat) (f : fut A) : tried A :=
  match n with
  | O => GaveUp
  | S n' =>
      match f with
      | Never => with_retries n' Never
      | After (S k) r => with_retries n' (After k r)
      | After O (Some a) => Got a
      | After O None => match n' with O => GaveUp | S _ => Crashed end
      end
  end.
Definition NUM_RETRIES : nat := 3.
Definition attempt {A} (f : fut A) : tried A := with_retries NUM_RETRIES f.

(** config.rs:159-163 *)
Record config : Type := mkConfig { c_nat_pmp : bool; c_upnp : bool }.
(** the ports of the transports that are enabled *)
Record ports : Type := mkPorts { p_ntcp2 : option N; p_ssu2 : option N }.

(** What the port mapper does that can be seen from outside.  [AMap]: a mapping is asked for,
    for so many seconds (0: for ever); [AUnmap]: its removal is asked for; [AAsk]: the external
    address is asked for, at that time; [AAddress]: an address is handed to the router; [AAck]:
    the shutdown is answered. *)
Inductive act : Type :=
| AMap (p : proto) (port lifetime : N)
| AUnmap (p : proto) (port : N)
| AAsk (time : N)
| AAddress (a : N)
| AAck.

(** The spawned task: the two event loops with the last address and when their timers were set,
    ended, or panicked.  [closed]: the shutdown channel has already reported that its sender is
    gone. *)
Inductive task : Type :=
| TNat (addr address_timer mapping_timer : N)
| TUpnp (addr : option N) (address_timer : N) (closed : bool)
| TEnded
| TPanicked.

(** nat_pmp.rs:42, 47, 279-281; upnp.rs:53 *)
Definition PORT_MAPPING_LIFETIME : N := 60 * 60.
Definition ADDRESS_REFRESH : N := 5 * 60.
Definition MAPPING_REFRESH : N := PORT_MAPPING_LIFETIME - 10.

Section Run.
Variable cfg : config.
Variable ps : ports.

(** What the gateway does while the task starts. *)
Record nat_start : Type := mkNat {
  n_client : fut unit; n_ntcp2 : fut response; n_ssu2 : fut response; n_addr : fut response }.
(** upnp.rs:194-215: the local address and the gateway may not be found *)
Record upnp_start : Type := mkUpnp {
  u_local : bool; u_gateway : bool; u_ntcp2 : fut unit; u_ssu2 : fut unit; u_addr : fut ip }.

(** nat_pmp.rs:147-174 [try_map_ntcp2] and 180-207 [try_map_ssu2]: [None] when the transport is
    disabled.  Both ask for TCP. *)
Definition nat_map (port : option N) (f : fut response) : list act * tried (option response) :=
  match port with
  | None => ([], Got None)
  | Some p =>
      ([AMap TCP p PORT_MAPPING_LIFETIME],
       match attempt f with Got r => Got (Some r) | GaveUp => GaveUp | Crashed => Crashed end)
  end.
(** nat_pmp.rs:210-232 [try_get_external_address] *)
Definition nat_address (f : fut response) : tried (option N) :=
  match attempt f with
  | Got (RGateway a) => Got (Some a)
  | Got _ => Got None
  | GaveUp => GaveUp
  | Crashed => Crashed
  end.

(** upnp.rs:120-152 [try_map_ntcp2], 158-190 [try_map_ssu2]; lifetime 0.  Only whether it
    panicked matters: the other outcomes are ignored (217-227). *)
Definition upnp_map (p : proto) (port : option N) (f : fut unit) : list act * tried unit :=
  match port with
  | None => ([], Got tt)
  | Some n => ([AMap p n 0], attempt f)
  end.

(** upnp.rs:193-256, up to the event loop *)
Definition upnp_run (now : N) (u : upnp_start) : list act * task :=
  if negb (u_local u) then ([], TEnded)
  else if negb (u_gateway u) then ([], TEnded)
  else
    let '(a1, r1) := upnp_map TCP (p_ntcp2 ps) (u_ntcp2 u) in
    match r1 with
    | Crashed => (a1, TPanicked)
    | _ =>
        let '(a2, r2) := upnp_map UDP (p_ssu2 ps) (u_ssu2 u) in
        match r2 with
        | Crashed => (a1 ++ a2, TPanicked)
        | _ =>
            let a3 := a1 ++ a2 ++ [AAsk now] in
            match attempt (u_addr u) with
            | Crashed => (a3, TPanicked)
            | Got (V4 a) => (a3 ++ [AAddress a], TUpnp (Some a) now false)
            | _ => (a3, TUpnp None now false)
            end
        end
    end.

(** nat_pmp.rs:117-141 [try_switch_to_upnp] *)
Definition switch (now : N) (u : upnp_start) : list act * task :=
  if negb (c_upnp cfg) then ([], TEnded) else upnp_run now u.

(** nat_pmp.rs:235-281, up to the event loop *)
Definition nat_run (now : N) (n : nat_start) (u : upnp_start) : list act * task :=
  match attempt (n_client n) with
  | Crashed => ([], TPanicked)
  | GaveUp => switch now u
  | Got _ =>
      let '(a1, r1) := nat_map (p_ntcp2 ps) (n_ntcp2 n) in
      match r1 with
      | Crashed => (a1, TPanicked)
      | GaveUp => let '(a, t) := switch now u in (a1 ++ a, t)
      | Got _ =>
          let '(a2, r2) := nat_map (p_ssu2 ps) (n_ssu2 n) in
          match r2 with
          | Crashed => (a1 ++ a2, TPanicked)
          | GaveUp => let '(a, t) := switch now u in (a1 ++ a2 ++ a, t)
          | Got _ =>
              let a3 := a1 ++ a2 ++ [AAsk now] in
              match nat_address (n_addr n) with
              | Crashed => (a3, TPanicked)
              | GaveUp | Got None => let '(a, t) := switch now u in (a3 ++ a, t)
              | Got (Some x) => (a3 ++ [AAddress x], TNat x now now)
              end
          end
      end
  end.

(** mod.rs:55-121 [PortMapper::new] *)
Definition start (now : N) (n : nat_start) (u : upnp_start) : list act * task :=
  if negb (c_upnp cfg) && negb (c_nat_pmp cfg) then ([], TEnded)
  else if c_nat_pmp cfg then nat_run now n u
  else upnp_run now u.

(** What an event loop can see next: the shutdown signal, the other end of the shutdown channel
    gone, the address timer (with the gateway's answers), the mapping timer. *)
Inductive event : Type :=
| EShutdown
| EDropped
| EAddress (f : fut response) (g : fut ip)
| EMapping (f1 f2 : fut response).

(** upnp.rs:269-279, 285-295.  That [remove_port] returns is assumed. *)
Definition unmap : list act :=
  match p_ssu2 ps with Some p => [AUnmap UDP p] | None => [] end ++
  match p_ntcp2 ps with Some p => [AUnmap TCP p] | None => [] end.

(** One round of the event loops, at time [now].  A timer that is set again counts from the start
    of the round.  nat_pmp.rs:283-351, upnp.rs:258-322. *)
Definition step (t : task) (now : N) (ev : event) : list act * task :=
  match t with
  | TEnded | TPanicked => ([], t)
  | TNat addr ta tm =>
      match ev with
      | EShutdown => ([AAck], TEnded)
      | EDropped => ([], TEnded)
      | EAddress f _ =>
          match nat_address f with
          | Crashed => ([AAsk now], TPanicked)
          | Got (Some a) =>
              if a =? addr then ([AAsk now], TNat addr now tm)
              else ([AAsk now; AAddress a], TNat a now tm)
          | _ => ([AAsk now], TNat addr now tm)
          end
      | EMapping f1 f2 =>
          let '(a1, r1) := nat_map (p_ntcp2 ps) f1 in
          match r1 with
          | Crashed => (a1, TPanicked)
          | _ =>
              let '(a2, r2) := nat_map (p_ssu2 ps) f2 in
              match r2 with
              | Crashed => (a1 ++ a2, TPanicked)
              | _ => (a1 ++ a2, TNat addr ta now)
              end
          end
      end
  | TUpnp addr ta closed =>
      (** the shutdown channel is polled in every round, and panics when it has completed *)
      if closed then ([], TPanicked) else
      match ev with
      | EShutdown => (unmap ++ [AAck], TEnded)
      (** upnp.rs:284-296: no [return] *)
      | EDropped => (unmap, TUpnp addr ta true)
      (** upnp.rs:298-320: the timer is not set again *)
      | EAddress _ g =>
          match attempt g with
          | Crashed => ([AAsk now], TPanicked)
          | Got (V4 a) =>
              if match addr with Some b => a =? b | None => false end
              then ([AAsk now], TUpnp addr ta false)
              else ([AAsk now; AAddress a], TUpnp (Some a) ta false)
          | _ => ([AAsk now], TUpnp addr ta false)
          end
      | EMapping _ _ => ([], t)
      end
  end.

(** Which events a loop can see at a time: a timer is seen once its time has passed since it
    was set (a timer that has fired and is not set again stays fired). *)
Definition may (t : task) (now : N) (ev : event) : bool :=
  match t, ev with
  | TNat _ ta _, EAddress _ _ => ta + ADDRESS_REFRESH <=? now
  | TNat _ _ tm, EMapping _ _ => tm + MAPPING_REFRESH <=? now
  | TUpnp _ ta _, EAddress _ _ => ta + ADDRESS_REFRESH <=? now
  | TUpnp _ _ _, EMapping _ _ => false
  | TEnded, _ | TPanicked, _ => false
  | _, _ => true
  end.

(** A run: the start, then rounds at times that do not go back, each of what can be seen then. *)
Fixpoint rounds (t : task) (now : N) (evs : list (N * event)) : option (list act * task) :=
  match evs with
  | [] => Some ([], t)
  | (at_, ev) :: rest =>
      if (now <=? at_) && may t at_ ev then
        let '(a, t') := step t at_ ev in
        match rounds t' at_ rest with
        | Some (b, t'') => Some (a ++ b, t'')
        | None => None
        end
      else None
  end.
Definition run (now : N) (n : nat_start) (u : upnp_start) (evs : list (N * event))
  : option (list act * task) :=
  let '(a, t) := start now n u in
  match rounds t now evs with Some (b, t') => Some (a ++ b, t') | None => None end.

(** mod.rs:127-135 [PortMapper::shutdown]: the signal is sent and the answer waited for; both
    channels are gone when the task is.  [true]: the call returns. *)
Definition shutdown_returns (t : task) (now : N) : bool :=
  match t with
  | TEnded | TPanicked => true
  | _ => let '(a, t') := step t now EShutdown in
         existsb (fun x => match x with AAck => true | _ => false end) a ||
         match t' with TEnded | TPanicked => true | _ => false end
  end.
End Run.
