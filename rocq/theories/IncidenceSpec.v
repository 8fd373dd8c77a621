(** C88: the incidences, as docs/incidence.md tells. *)
From Coq Require Import String.
From Verif Require Import Base CString Slurm Manifest.
Notation length := List.length.

Inductive kind := HashalgHasParams | ObjNotDer | FileNotFound | HashNotMatch | MftStale | CrlStale.
Definition documented_name (k : kind) : list Z :=
  cstr (match k with
        | HashalgHasParams => "incid-hashalg-has-params" | ObjNotDer => "incid-obj-not-der-encoded"
        | FileNotFound => "incid-file-at-mft-not-found" | HashNotMatch => "incid-file-at-mft-hash-not-match"
        | MftStale => "incid-mft-stale" | CrlStale => "incid-crl-stale" end).
Definition documented_default (k : kind) : action := match k with HashalgHasParams | ObjNotDer => INAC_IGNORE | _ => INAC_ERROR end.
Definition documented_action (a : action) : list Z := cstr (match a with INAC_IGNORE => "ignore" | INAC_WARN => "warn" | INAC_ERROR => "error" end).
(** src/incidence/incidence.h:10-18: the identifiers the validation uses. *)
Definition id (k : kind) : nat := match k with HashalgHasParams => 0 | ObjNotDer => 1 | FileNotFound => 2 | HashNotMatch => 3 | MftStale => 4 | CrlStale => 5 end%nat.

(** An element of the configuration that says that errors of the kind [k] lead to [a]. *)
Definition says (j : json) (k : kind) (a : action) : Prop :=
  json_object_get j (cstr "name") = Some (JStr (documented_name k)) /\ json_object_get j (cstr "action") = Some (JStr (documented_action a)).
Definition sensible (j : json) : Prop := exists k a, says j k a.
(** The last word on it, if any; otherwise what it was. *)
Inductive configured (k : kind) (before : action) : list json -> action -> Prop :=
| conf_none : configured k before [] before
| conf_says js j a b : configured k before js b -> says j k a -> configured k before (js ++ [j]) a
| conf_other js j k' a b : configured k before js b -> says j k' a -> k' <> k -> configured k before (js ++ [j]) b.
