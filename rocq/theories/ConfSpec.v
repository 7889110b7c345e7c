(** What a setting is, said as questions about the configuration.  Every question has an answer
    or none. *)
From Coq Require Import List NArith Bool.
From Verif Require Import ConfModel.
Import ListNotations.
Open Scope N_scope.

Inductive answer : Type :=
| AB (b : bool) | AN (n : N) | AS (s : str) | AL (l : list str) | AT (t : theme).

(** The settings a user can give in the file and on the command line. *)
Inductive setting : Type :=
| Floodfill | Insecure | AllowLocal | MetricsPort | Caps | NetId | Log
| ReseedHosts | ReseedThreshold | ProxyPort | ProxyHost
| InLen | InCount | OutLen | OutCount | MaxTransit | UpnpName | UiTheme | UiRefresh.

Definition get {A B} (o : option A) (f : A -> option B) : option B :=
  match o with Some a => f a | None => None end.
Definition an (o : option N) : option answer := option_map AN o.

(** What the configuration says about it. *)
Definition value (s : settings) (q : setting) : option answer :=
  match q with
  | Floodfill => Some (AB (floodfill s))
  | Insecure => Some (AB (insecure s))
  | AllowLocal => Some (AB (allow_local s))
  | MetricsPort => an (metrics s)
  | Caps => option_map AS (caps s)
  | NetId => an (net_id s)
  | Log => option_map AS (log s)
  | ReseedHosts => get (reseeding s) (fun r => option_map AL (r_hosts r))
  | ReseedThreshold => get (reseeding s) (fun r => Some (AN (r_threshold r)))
  | ProxyPort => get (http s) (fun h => Some (AN (h_port h)))
  | ProxyHost => get (http s) (fun h => Some (AS (h_host h)))
  | InLen => get (exploratory s) (fun x => an (x_il x))
  | InCount => get (exploratory s) (fun x => an (x_ic x))
  | OutLen => get (exploratory s) (fun x => an (x_ol x))
  | OutCount => get (exploratory s) (fun x => an (x_oc x))
  | MaxTransit => get (transit s) an
  | UpnpName => get (fwd s) (fun f => Some (AS (f_name f)))
  | UiTheme => get (rui s) (fun u => Some (AT (u_theme u)))
  | UiRefresh => get (rui s) (fun u => Some (AN (u_refresh u)))
  end.

Definition flag (o : option bool) : option answer :=
  match o with Some true => Some (AB true) | _ => None end.
(** What the command line says about it; a flag that is not there says nothing. *)
Definition given (a : args) (q : setting) : option answer :=
  match q with
  | Floodfill => flag (a_floodfill a)
  | Insecure => flag (a_insecure a)
  | AllowLocal => flag (a_allow_local a)
  | MetricsPort => an (a_metrics_port a)
  | Caps => option_map AS (a_caps a)
  | NetId => an (a_net_id a)
  | Log => option_map AS (a_log a)
  | ReseedHosts => option_map AL (a_hosts a)
  | ReseedThreshold => an (a_threshold a)
  | ProxyPort => an (a_proxy_port a)
  | ProxyHost => option_map AS (a_proxy_host a)
  | InLen => an (x_il (a_expl a))
  | InCount => an (x_ic (a_expl a))
  | OutLen => an (x_ol (a_expl a))
  | OutCount => an (x_oc (a_expl a))
  | MaxTransit => an (a_max_transit a)
  | UpnpName => option_map AS (a_upnp_name a)
  | UiTheme => option_map AT (a_theme a)
  | UiRefresh => an (a_refresh a)
  end.

(** The settings a "disable" flag of the command line switches off. *)
Definition disabled (a : args) (q : setting) : Prop :=
  match q with
  | MetricsPort => a_disable_metrics a = Some true
  | ReseedHosts | ReseedThreshold => a_disable_reseed a = Some true
  | MaxTransit => a_disable_transit a = Some true
  | UiTheme | UiRefresh => a_disable_ui a = Some true
  | _ => False
  end.

(** The sections of the file without which a setting has no place. *)
Definition section (s : settings) (q : setting) : Prop :=
  match q with
  | ProxyPort | ProxyHost => http s <> None
  | UpnpName => fwd s <> None
  | UiTheme | UiRefresh => rui s <> None
  | _ => True
  end.

(** What clap hands over: every flag is there or not. *)
Definition from_clap (a : args) : Prop := a_disable_metrics a <> None.
