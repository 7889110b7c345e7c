(** Model of the fields of the configuration: /repo/emissary-cli/src/config.rs (the file's
    structures, [Config::new], [Config::new_empty], [Config::merge]) and cli.rs (the arguments).

    Strings are lists of numbers.  Reading and writing the file itself is BootModel's. *)
From Coq Require Import List NArith Bool.
Import ListNotations.
Open Scope N_scope.

Definition str : Type := list N.

(** config.rs:79-85; both in the file and in the configuration *)
Record expl : Type := mkExpl { x_il : option N; x_ic : option N; x_ol : option N; x_oc : option N }.
(** config.rs:114-118 *)
Record reseed : Type := mkReseed { r_hosts : option (list str); r_threshold : N }.
(** config.rs:120-124 *)
Record proxy : Type := mkProxy { h_port : N; h_host : str }.
(** config.rs:158-163 *)
Record forwarding : Type := mkFwd { f_nat_pmp : bool; f_upnp : bool; f_name : str }.
(** config.rs:165-183 *)
Inductive theme : Type := Light | Dark.
Record ui : Type := mkUi { u_theme : theme; u_refresh : N }.
(** config.rs:132-146 *)
Record client : Type := mkClient {
  t_name : str; t_address : option str; t_port : N; t_dest : str; t_dport : option N }.
Record server : Type := mkServer { s_name : str; s_port : N; s_path : str }.

(** The settings that are the same in the file (config.rs:185-216) and in the configuration
    (276-371), and that [merge] may change; [book]: the address book, which it does not. *)
Record settings : Type := mkSettings {
  floodfill : bool; insecure : bool; allow_local : bool;
  metrics : option N; caps : option str; net_id : option N; log : option str;
  reseeding : option reseed; http : option proxy; exploratory : option expl;
  transit : option (option N); fwd : option forwarding; rui : option ui; book : option (option str * option (list str)) }.
(** the file *)
Record file : Type := mkFile {
  e_set : settings;
  e_ntcp2 : option (N * option N * option bool);
  e_ssu2 : option (N * option N * option bool);
  e_sam : option (N * N * option str);
  e_i2cp : option (N * option str);
  e_clients : option (list client);
  e_servers : option (list server) }.
(** the configuration the router is started with, without the keys and what is loaded *)
Record config : Type := mkConf {
  c_set : settings;
  c_ntcp2 : option (N * option N * bool);
  c_ssu2 : option (N * option N * bool);
  c_sam : option (N * N * str);
  c_i2cp : option (N * str);
  c_clients : list client;
  c_servers : list server }.

(** 127.0.0.1 *)
Definition localhost : str := [49; 50; 55; 46; 48; 46; 48; 46; 49].
Definition or_else {A} (o : option A) (d : A) : A := match o with Some a => a | None => d end.

Definition str_dec : forall a b : str, {a = b} + {a <> b} := list_eq_dec N.eq_dec.
(** the number of elements of a [HashSet] collected from the list *)
Definition distinct {A} (dec : forall a b : A, {a = b} + {a <> b}) (l : list A) : nat :=
  length (nodup dec l).

(** config.rs:770-792, 794-831 *)
Definition clients_ok (l : list client) : bool :=
  Nat.eqb (distinct str_dec (map t_name l)) (length l) &&
  Nat.eqb (distinct N.eq_dec (map t_port l)) (length l).
Definition servers_ok (l : list server) : bool :=
  Nat.eqb (distinct str_dec (map s_name l)) (length l) &&
  Nat.eqb (distinct N.eq_dec (map s_port l)) (length l) &&
  Nat.eqb (distinct str_dec (map s_path l)) (length l).

(** config.rs:747-889 [Config::new], from a file that was read; [None]: [Error::InvalidData] *)
Definition new (e : file) : option config :=
  if negb (match e_clients e with Some l => clients_ok l | None => true end) then None
  else if negb (match e_servers e with Some l => servers_ok l | None => true end) then None
  else Some (mkConf (e_set e)
    (match e_ntcp2 e with Some (p, h, pub) => Some (p, h, or_else pub false) | None => None end)
    (match e_ssu2 e with Some (p, h, pub) => Some (p, h, or_else pub false) | None => None end)
    (match e_sam e with Some (t, u, h) => Some (t, u, or_else h localhost) | None => None end)
    (match e_i2cp e with Some (p, h) => Some (p, or_else h localhost) | None => None end)
    (or_else (e_clients e) []) (or_else (e_servers e) [])).

(** config.rs:218-274 [EmissaryConfig::default]; the texts are parameters *)
Definition default (hosts_url xr name : str) : file :=
  mkFile
    (mkSettings false false false (Some 7788) (Some xr) None None
       (Some (mkReseed None 25)) (Some (mkProxy 4444 localhost)) None (Some (Some 1000))
       (Some (mkFwd true true name)) (Some (mkUi Dark 5)) (Some (Some hosts_url, None)))
    (Some (25115, None, Some true)) None (Some (7656, 7655, None)) (Some (7654, None)) None None.

(** config.rs:677-744 [Config::new_empty]: the configuration of a first start *)
Definition new_empty (hosts_url xr name : str) : config :=
  let e := default hosts_url xr name in
  mkConf (e_set e)
    (match e_ntcp2 e with Some (p, _, _) => Some (p, None, true) | None => None end)
    None
    (match e_sam e with Some (t, u, h) => Some (t, u, or_else h localhost) | None => None end)
    (match e_i2cp e with Some (p, h) => Some (p, or_else h localhost) | None => None end)
    (or_else (e_clients e) []) (or_else (e_servers e) []).

(** cli.rs:23-212.  Flags are [Some false] when clap does not find them ([SetTrue]). *)
Record args : Type := mkArgs {
  a_floodfill : option bool; a_insecure : option bool; a_allow_local : option bool;
  a_disable_metrics : option bool; a_metrics_port : option N;
  a_caps : option str; a_net_id : option N; a_log : option str;
  a_hosts : option (list str); a_threshold : option N; a_disable_reseed : option bool;
  a_proxy_port : option N; a_proxy_host : option str;
  a_expl : expl;
  a_max_transit : option N; a_disable_transit : option bool;
  a_disable_upnp : option bool; a_disable_nat_pmp : option bool; a_upnp_name : option str;
  a_theme : option theme; a_refresh : option N; a_disable_ui : option bool }.

Definition is_true (o : option bool) : bool := match o with Some true => true | _ => false end.
Definition over {A} (given file : option A) : option A :=
  match given with Some a => Some a | None => file end.

(** config.rs:1048-1078 *)
Definition merge_reseed (a : args) (r : option reseed) : option reseed :=
  let r1 := match a_hosts a with
            | Some hosts => Some match r with
                                 | None => mkReseed (Some hosts) 25
                                 | Some c => mkReseed (Some hosts) (r_threshold c)
                                 end
            | None => r end in
  let r2 := match a_threshold a with
            | Some n => Some match r1 with
                             | None => mkReseed None n
                             | Some c => mkReseed (r_hosts c) n
                             end
            | None => r1 end in
  if is_true (a_disable_reseed a) then None else r2.

(** config.rs:1080-1109 *)
Definition merge_http (a : args) (h : option proxy) : option proxy :=
  match h with
  | Some c => Some (mkProxy (or_else (a_proxy_port a) (h_port c)) (or_else (a_proxy_host a) (h_host c)))
  | None =>
      match a_proxy_port a, a_proxy_host a with
      | Some p, Some t => Some (mkProxy p t)
      | _, _ => None
      end
  end.

(** config.rs:1111-1127 *)
Definition merge_expl (a : args) (x : option expl) : option expl :=
  let g := a_expl a in
  match x with
  | None => Some g
  | Some c => Some (mkExpl (over (x_il g) (x_il c)) (over (x_ic g) (x_ic c))
                           (over (x_ol g) (x_ol c)) (over (x_oc g) (x_oc c)))
  end.

(** config.rs:1129-1137 *)
Definition merge_transit (a : args) (t : option (option N)) : option (option N) :=
  let t1 := match a_max_transit a with Some n => Some (Some n) | None => t end in
  if is_true (a_disable_transit a) then None else t1.

(** config.rs:1139-1156 *)
Definition merge_fwd (a : args) (f : option forwarding) : option forwarding :=
  match f with
  | None => None
  | Some c => Some (mkFwd (if is_true (a_disable_nat_pmp a) then false else f_nat_pmp c)
                          (if is_true (a_disable_upnp a) then false else f_upnp c)
                          (or_else (a_upnp_name a) (f_name c)))
  end.

(** config.rs:1158-1174 *)
Definition merge_ui (a : args) (u : option ui) : option ui :=
  match u with
  | None => None
  | Some c => if is_true (a_disable_ui a) then None
              else Some (mkUi (or_else (a_theme a) (u_theme c)) (or_else (a_refresh a) (u_refresh c)))
  end.

(** config.rs:1006-1177 [Config::merge] *)
Definition merge_set (a : args) (s : settings) : settings :=
  mkSettings
    (if is_true (a_floodfill a) then true else floodfill s)
    (if is_true (a_insecure a) then true else insecure s)
    (if is_true (a_allow_local a) then true else allow_local s)
    (match a_disable_metrics a, a_metrics_port a with
     | Some true, _ => None
     | Some false, Some p => Some p
     | _, _ => metrics s end)
    (over (a_caps a) (caps s)) (over (a_net_id a) (net_id s)) (over (a_log a) (log s))
    (merge_reseed a (reseeding s)) (merge_http a (http s)) (merge_expl a (exploratory s))
    (merge_transit a (transit s)) (merge_fwd a (fwd s)) (merge_ui a (rui s)) (book s).
Definition merge (c : config) (a : args) : config :=
  mkConf (merge_set a (c_set c)) (c_ntcp2 c) (c_ssu2 c) (c_sam c) (c_i2cp c) (c_clients c) (c_servers c).
