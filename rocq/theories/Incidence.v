(** Model of src/incidence/incidence.c and src/config/incidences.c: the configured reactions to some errors. *)
From Coq Require Import String.
From Verif Require Import Base CString Slurm Manifest.
Notation length := List.length.

(** src/incidence/incidence.h:10-18 [enum incidence_id]: an index of the array. *)
Record incidence_t := { in_name : list Z; in_default : action; in_action : action }.
(** src/incidence/incidence.c:18-55 [incidences]: before incidence_init(), all the actions are 0. *)
Definition incidences : list incidence_t :=
  [ {| in_name := cstr "incid-hashalg-has-params"; in_default := INAC_IGNORE; in_action := INAC_IGNORE |};
    {| in_name := cstr "incid-obj-not-der-encoded"; in_default := INAC_IGNORE; in_action := INAC_IGNORE |};
    {| in_name := cstr "incid-file-at-mft-not-found"; in_default := INAC_ERROR; in_action := INAC_IGNORE |};
    {| in_name := cstr "incid-file-at-mft-hash-not-match"; in_default := INAC_ERROR; in_action := INAC_IGNORE |};
    {| in_name := cstr "incid-mft-stale"; in_default := INAC_ERROR; in_action := INAC_IGNORE |};
    {| in_name := cstr "incid-crl-stale"; in_default := INAC_ERROR; in_action := INAC_IGNORE |} ].
Definition INID_MAX : nat := 6.

Definition set_action (i : incidence_t) (a : action) : incidence_t := {| in_name := in_name i; in_default := in_default i; in_action := a |}.

(** src/incidence/incidence.c:57-70 [name2id]. *)
Fixpoint name2id_from (k : nat) (l : list incidence_t) (name : list Z) : res nat :=
  match l with
  | [] => Err EINVAL
  | i :: l => if list_eqb Z.eqb name (in_name i) then Ok k else name2id_from (S k) l name
  end.
Definition name2id (l : list incidence_t) (name : list Z) : res nat := name2id_from 0 l name.

(** src/incidence/incidence.c:87-123 [init_action]. *)
Definition init_action (l : list incidence_t) (j : json) : res (list incidence_t) :=
  bind (json_get_str j (cstr "name")) (fun name =>
  match name with
  | None => Err EINVAL
  | Some name =>
      bind (name2id l name) (fun id =>
      bind (json_get_str j (cstr "action")) (fun a =>
      match a with
      | None => Err EINVAL
      | Some a =>
          bind (if list_eqb Z.eqb (cstr "ignore") a then Ok INAC_IGNORE
                else if list_eqb Z.eqb (cstr "warn") a then Ok INAC_WARN
                else if list_eqb Z.eqb (cstr "error") a then Ok INAC_ERROR
                else Err EINVAL) (fun action =>
          match nth_error l id with
          | None => UB
          | Some i => Ok (upd l id (set_action i action))
          end)
      end))
  end).

(** src/incidence/incidence.c:128-142 [incidence_init]. *)
Definition incidence_init (l : list incidence_t) : list incidence_t := map (fun i => set_action i (in_default i)) l.

(** src/incidence/incidence.c:147-164 [incidence_update]: the incidences, and the error.  Those before the one that is wrong have been applied. *)
Fixpoint update_loop (l : list incidence_t) (js : list json) : res (list incidence_t * Z) :=
  match js with
  | [] => Ok (l, 0)
  | j :: js =>
      match init_action l j with
      | Ok l => update_loop l js
      | Err _ => Ok (l, -22)
      | UB => UB
      end
  end.
Definition incidence_update (l : list incidence_t) (j : json) : res (list incidence_t * Z) :=
  match j with JArr js => update_loop l js | _ => Ok (l, -22) end.

(** src/incidence/incidence.c:180-184 [incidence_get_action]. *)
Definition incidence_get_action (l : list incidence_t) (id : nat) : res action :=
  match nth_error l id with Some i => Ok (in_action i) | None => UB end.

(** src/log.c:671-689 [incidence] is in Manifest.v.  What an error of the kind [id] returns. *)
Definition incidence_of (l : list incidence_t) (id : nat) : res Z := bind (incidence_get_action l id) (fun a => Ok (incidence a)).
