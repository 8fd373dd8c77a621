(** C87: what is expected of the process. *)
From Verif Require Import Base DbTable Vrps Main.
Notation length := List.length.

(** A C int. *)
Definition is_int (n : Z) : Prop := -2147483648 <= n <= 2147483647.

(** The order of the modules, and those that have something to clean up. *)
Definition all_modules : list module := [MLog; MThreadVars; MIncidences; MConfig; MNids; MExtensions; MHttp; MRelaxNg; MVrps].
Definition holds_something (m : module) : bool := match m with MThreadVars | MIncidences | MExtensions => false | _ => true end.
Definition initialised (es : list event) : list module := flat_map (fun e => match e with Initialised m => [m] | _ => [] end) es.
Definition cleaned_up (es : list event) : list module := flat_map (fun e => match e with CleanedUp m => [m] | _ => [] end) es.

(** The serials the routers were told. *)
Definition notified (es : list event) : list (res Z) := flat_map (fun e => match e with Notified s => [s] | _ => [] end) es.
Definition results (es : list event) : list Z := flat_map (fun e => match e with Updated r => [r] | _ => [] end) es.

(** Whether the RTR server runs, after some events. *)
Fixpoint rtr_runs (b : bool) (es : list event) : bool :=
  match es with [] => b | RtrStarted :: es => rtr_runs true es | RtrStopped :: es => rtr_runs false es | _ :: es => rtr_runs b es end.

(** No cycle is interrupted. *)
Definition uninterrupted (c : cycle) : Prop := match c with SlurmFailed e => errno_of e <> - EINTR /\ errno_of e <> 0 | _ => True end.
