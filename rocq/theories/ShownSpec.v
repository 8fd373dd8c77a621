(** What is shown of the configuration, in terms of the manual of ConfigSpec.v. *)
From Coq Require Import String.
From Verif Require Import Base CString Slurm Manifest Incidence Config ConfigSpec.
From Verif Require IncidenceSpec.
Notation length := List.length.
Open Scope list_scope.
Open Scope Z_scope.

(** There's no value: null, or none of the words. *)
Definition unset (k : kind) (v : value) : Prop :=
  v = VStr None \/ exists words n, k = K_word words /\ v = VEnum n /\ ~ In n (map snd words).
(** The text of a value: what the command line would say to get it. *)
Definition value_text (k : kind) (v : value) (t : list Z) : Prop :=
  says_argv k (Some t) v \/ (unset k v /\ t = cstr "(null)").
Definition all_kinds : list IncidenceSpec.kind :=
  [IncidenceSpec.HashalgHasParams; IncidenceSpec.ObjNotDer; IncidenceSpec.FileNotFound; IncidenceSpec.HashNotMatch; IncidenceSpec.MftStale; IncidenceSpec.CrlStale].
(** The messages which show the option [n]: one, with its value; or one for each
    string, or each kind of incidence, after a title. *)
Inductive block (inc : IncidenceSpec.kind -> action) (n : string) : kind -> value -> list (list Z) -> Prop :=
| bl_value k v t : match k with K_list _ | K_incidences => False | _ => True end -> value_text k v t -> block inc n k v [cstr n ++ cstr ": " ++ t]
| bl_empty lim : block inc n (K_list lim) (VArr []) [cstr n ++ cstr ":"; cstr "  <Nothing>"]
| bl_list lim l : l <> [] -> block inc n (K_list lim) (VArr l) ((cstr n ++ cstr ":") :: map (app (cstr "  ")) l)
| bl_incidences v ds ms : Forall2 (fun '(k, d) m => m = cstr "  " ++ IncidenceSpec.documented_name k ++ cstr " (" ++ d ++ cstr "): " ++ IncidenceSpec.documented_action (inc k)) (combine all_kinds ds) ms ->
    length ds = 6%nat -> block inc n K_incidences v (cstr "Custom incidences:" :: ms).

Definition is_setting (d : documented) : bool := match d_kind d with K_stop | K_file => false | _ => true end.
(** The value in use: what the settings say, but a daemon logs to syslog. *)
Definition in_use (l : list setting) (n : string) : value :=
  if as_bool (value_of l "daemon") && (String.eqb n "log.output" || String.eqb n "validation-log.output") then VEnum SYSLOG else value_of l n.
(** All settings, in the order of the manual. *)
Definition shows_all (l : list setting) (inc : IncidenceSpec.kind -> action) (messages : list (list Z)) : Prop :=
  exists blocks, Forall2 (fun d b => block inc (d_name d) (d_kind d) (in_use l (d_name d)) b) (filter is_setting manual) blocks /\ messages = concat blocks.
