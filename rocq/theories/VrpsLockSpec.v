(** What is expected of the RTR server's data when several threads use it. *)
From Verif Require Import Base VrpsLock.
Notation length := List.length.

(** The states a server can get to, for some lifetime of its deltas; several steps. *)
Inductive reachable (capacity : nat) : state -> Prop :=
| r_initial s : initial s -> reachable capacity s
| r_step s s' : reachable capacity s -> step capacity s s' -> reachable capacity s'.
Inductive runs (capacity : nat) : state -> state -> Prop :=
| runs_refl s : runs capacity s s
| runs_step s s' s'' : runs capacity s s' -> step capacity s' s'' -> runs capacity s s''.
(** The same, of one thread that answers; of all but one client. *)
Inductive runs_of (t : nat) : state -> state -> Prop :=
| runs_of_refl s : runs_of t s s
| runs_of_step s s' s'' : runs_of t s s' -> rstep t s' s'' -> runs_of t s s''.
Inductive runs_without (capacity : nat) (t : nat) : state -> state -> Prop :=
| runs_without_refl s : runs_without capacity t s s
| runs_without_step s s' s'' : runs_without capacity t s s' -> step capacity s' s'' -> c s'' t = c s' t -> runs_without capacity t s s''.

(** The object in memory that some thread is using: it reads it, adds to it or is about to release it. *)
Inductive accesses (s : state) : nat -> Prop :=
| a_table t b n : r s t = R_table b n -> accesses s b
| a_table_send t b n : r s t = R_table_send b n -> accesses s b
| a_deltas t ds n d : r s t = R_deltas ds n -> In d ds -> accesses s d
| a_validated old new : w s = W_validated old new -> accesses s new
| a_comparing_old old new : w s = W_comparing (Some old) new -> accesses s old
| a_comparing_new old new : w s = W_comparing old new -> accesses s new
| a_adding old d : w s = W_in_serial old (Some d) -> accesses s d
| a_releasing old d f : w s = W_in_serial old (Some d) -> hd_error (deltas s) = Some f -> accesses s f
| a_free old : w s = W_free (Some old) -> accesses s old
| a_stats b : w s = W_stats -> base s = Some b -> accesses s b.

(** The objects that have been created, and nothing else, are 0, 1, ..., next - 1.  Those the updater is responsible for, apart from the ones in
    the shared data: the table it has obtained or replaced, the group of deltas it has computed. *)
Definition owned (p : wpc) : list nat :=
  match p with
  | W_validated _ new | W_comparing _ new => [new]
  | W_want _ new d | W_in _ new d => new :: ids d
  | W_in_base old d | W_in_serial old d => ids old ++ ids d
  | W_in_all old | W_free old => ids old
  | _ => []
  end.
Definition shared (s : state) : list nat := ids (base s) ++ deltas s.

(** What somebody saw is what one update left. *)
Definition seen_in (e : Z * nat * list nat) (a : seen) : Prop :=
  match e, a with
  | (n, b, ds), S_table b' => b' = b
  | (n, b, ds), S_deltas ds' to => to = n /\ exists older, ds = older ++ ds'
  | (n, b, ds), S_serial n' => n' = n
  | (n, b, ds), S_stats b' n' => b' = b /\ n' = n
  end.
(** What an update leaves, given what the earlier one left: a new table, the next serial, and the group of deltas between the two at the end,
    from which the oldest groups have been removed if there'd be more than [capacity]. *)
Definition follows (capacity : nat) (e e' : Z * nat * list nat) : Prop :=
  match e, e' with
  | (n, b, ds), (n', b', ds') => b' <> b /\ n' = wrap32 (n + 1) /\ exists d older, ds ++ [d] = older ++ ds' /\ ~ In d ds /\ length ds' = Nat.min capacity (length ds + 1)
  end.
Fixpoint history (capacity : nat) (l : list (Z * nat * list nat)) : Prop :=
  match l with
  | e' :: ((e :: _) as l') => follows capacity e e' /\ history capacity l'
  | [(n, b, ds)] => ds = []
  | [] => True
  end.
(** A thread is in the middle of sending something to its client, that it has to wait for. *)
Definition sending (p : rpc) : Prop := match p with R_table_send _ _ | R_deltas_send _ (S _) => True | _ => False end.
(** Several steps of threads that answer, at each moment of which one of them has the lock. *)
Inductive runs_locked : state -> state -> Prop :=
| runs_locked_refl s : runs_locked s s
| runs_locked_step t u s s' s'' : runs_locked s s' -> rstep t s' s'' -> reading (r s'' u) = true -> runs_locked s s''.
