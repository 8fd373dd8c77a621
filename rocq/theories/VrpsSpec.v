(** Specification vocabulary for the RTR database (C04-C10): what a router
    does with a delta stream, and what a history of validation cycles
    publishes.  Independent of the model's functions (only its data types are
    used). *)
From Verif Require Import Base Types DbTable Vrps.

(** A strict RTR client (RFC 8210 5.6 and 12): announcing a record it already
    has is the error "Duplicate Announcement Received", withdrawing one it
    lacks is "Withdrawal of Unknown Record".  [client_run evs S S'] holds iff
    the client, holding the set [S], accepts every event in order and ends up
    with the set [S']. *)
Inductive client_run {A : Type} : list (flag * A) -> (A -> Prop) -> (A -> Prop) -> Prop :=
| cr_end (S S' : A -> Prop) : (forall x, S x <-> S' x) -> client_run [] S S'
| cr_announce x evs (S S' : A -> Prop) :
    ~ S x -> client_run evs (fun y => S y \/ y = x) S' ->
    client_run ((ANNOUNCEMENT, x) :: evs) S S'
| cr_withdraw x evs (S S' : A -> Prop) :
    S x -> client_run evs (fun y => S y /\ y <> x) S' ->
    client_run ((WITHDRAWAL, x) :: evs) S S'.

(** The data of a table, as sets. *)
Definition roas_of (t : db_table) : vrp -> Prop := fun v => In v (t_roas t).
Definition rks_of (t : db_table) : router_key -> Prop := fun k => In k (t_rks t).
Definition same_data (t1 t2 : db_table) : Prop :=
  (forall v, roas_of t1 v <-> roas_of t2 v) /\ (forall k, rks_of t1 k <-> rks_of t2 k).

(** Tables are sets: no element twice (guaranteed by the hash table). *)
Definition table_ok (t : db_table) : Prop := NoDup (t_roas t) /\ NoDup (t_rks t).
Definition cycle_ok (c : cycle) : Prop :=
  match c with Validated t => table_ok t | _ => True end.

(** The list of data sets published by a sequence of cycles, oldest first:
    a cycle publishes iff it validated and its data differ from the last
    published ones. *)
Inductive publishes : list db_table -> list cycle -> list db_table -> Prop :=
| pub_end h : publishes h [] h
| pub_failed h cs h' : publishes h cs h' -> publishes h (ValidationFailed :: cs) h'
| pub_slurm_failed h e cs h' : publishes h cs h' -> publishes h (SlurmFailed e :: cs) h'
| pub_first t cs h' : publishes [t] cs h' -> publishes [] (Validated t :: cs) h'
| pub_same h p t cs h' :
    same_data p t -> publishes (h ++ [p]) cs h' ->
    publishes (h ++ [p]) (Validated t :: cs) h'
| pub_new h p t cs h' :
    ~ same_data p t -> publishes (h ++ [p] ++ [t]) cs h' ->
    publishes (h ++ [p]) (Validated t :: cs) h'.

(** The callback that just records what it is given and never fails. *)
Definition rec_cb {X : Type} (acc : list X) (x : X) : list X * Z := (acc ++ [x], 0).

(** The streams of VRP and router key deltas the server would send for a
    serial, with what the function returns. *)
Definition delta_streams (s : state) (from : Z)
  : res (list (flag * vrp) * list (flag * router_key) * since_ret) :=
  match vrps_foreach_delta_since
          (fun a v => ((fst a ++ [v], snd a), 0))
          (fun a k => ((fst a, snd a ++ [k]), 0)) s from ([], []) with
  | Ok ((vs, ks), r) => Ok (vs, ks, r)
  | Err e => Err e
  | UB => UB
  end.
