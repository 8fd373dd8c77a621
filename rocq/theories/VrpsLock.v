(** The RTR server's data, its readers-writer lock, and the threads that use it: src/rtr/db/vrps.c.

    Tables and groups of deltas are objects in memory, of which only the identity and whether they have been freed matter here (what they
    contain: Vrps.v, DbTable.v).  One thread updates; any number of others answer queries; the step relation interleaves them at each
    operation on the lock or on shared memory, and each time something is sent.  Clients read what they're sent, or don't, or go away. *)
From Verif Require Import Base.
Notation length := List.length.

(** A function that accesses the data: vrps_foreach_base(), vrps_foreach_delta_since(), get_last_serial_number(). *)
Inductive query := QBase | QDelta | QSerial.
(** Where a thread that answers queries is.  [n]: how much it still has to send. *)
Inductive rpc :=
| R_idle                                          (* doing anything else *)
| R_want (q : query)                              (* calling rwlock_read_lock() *)
| R_in (q : query)                                (* it has the lock *)
| R_table (b : nat) (n : nat) | R_table_send (b : nat) (n : nat)    (* traversing a table; sending something of it *)
| R_deltas (ds : list nat) (n : nat)              (* copying what some groups of deltas contain *)
| R_deltas_send (ds : list nat) (n : nat).        (* sending the copies *)
(** Where the updater is: src/rtr/db/vrps.c:180-238 [__vrps_update], 250-283 [vrps_update]. *)
Inductive wpc :=
| W_idle
| W_validating (old : option nat)
| W_validated (old : option nat) (new : nat)      (* slurm_apply(), output_print_data() *)
| W_comparing (old : option nat) (new : nat)      (* compute_deltas() *)
| W_want (old : option nat) (new : nat) (d : option nat)     (* calling rwlock_write_lock() *)
| W_in (old : option nat) (new : nat) (d : option nat)
| W_in_base (old : option nat) (d : option nat) | W_in_serial (old : option nat) (d : option nat) | W_in_all (old : option nat)
| W_free (old : option nat)                       (* it has unlocked *)
| W_stats_want | W_stats.                         (* vrps_update(): calling rwlock_read_lock(); counting *)

Inductive client := Reads | Stalled | Gone.
(** What a query got to see: a table, groups of deltas and the serial they lead to, a serial; and the log, a table and a serial. *)
Inductive seen := S_table (b : nat) | S_deltas (ds : list nat) (to : Z) | S_serial (s : Z) | S_stats (b : nat) (s : Z).

Record state := {
  base : option nat; serial : Z; deltas : list nat;     (* struct state: deltas from the oldest *)
  w : wpc; r : nat -> rpc; c : nat -> client;
  next : nat; freed : list nat;                         (* memory *)
  published : list (Z * nat * list nat);                (* ghost: what each update left, from the last *)
  answers : list seen                                   (* ghost *)
}.
Definition set_r (s : state) (t : nat) (p : rpc) : state :=
  {| base := base s; serial := serial s; deltas := deltas s; w := w s; r := fun u => if Nat.eqb u t then p else r s u; c := c s; next := next s; freed := freed s; published := published s; answers := answers s |}.
Definition set_w (s : state) (p : wpc) : state :=
  {| base := base s; serial := serial s; deltas := deltas s; w := p; r := r s; c := c s; next := next s; freed := freed s; published := published s; answers := answers s |}.
Definition set_c (s : state) (t : nat) (x : client) : state :=
  {| base := base s; serial := serial s; deltas := deltas s; w := w s; r := r s; c := fun u => if Nat.eqb u t then x else c s u; next := next s; freed := freed s; published := published s; answers := answers s |}.
Definition set_data (s : state) (b : option nat) (n : Z) (ds : list nat) : state :=
  {| base := b; serial := n; deltas := ds; w := w s; r := r s; c := c s; next := next s; freed := freed s; published := published s; answers := answers s |}.
Definition allocate (s : state) : state :=
  {| base := base s; serial := serial s; deltas := deltas s; w := w s; r := r s; c := c s; next := S (next s); freed := freed s; published := published s; answers := answers s |}.
Definition free (s : state) (l : list nat) : state :=
  {| base := base s; serial := serial s; deltas := deltas s; w := w s; r := r s; c := c s; next := next s; freed := l ++ freed s; published := published s; answers := answers s |}.
Definition publish (s : state) : state :=
  {| base := base s; serial := serial s; deltas := deltas s; w := w s; r := r s; c := c s; next := next s; freed := freed s;
     published := match base s with Some b => [(serial s, b, deltas s)] | None => [] end ++ published s; answers := answers s |}.
Definition answer (s : state) (a : seen) : state :=
  {| base := base s; serial := serial s; deltas := deltas s; w := w s; r := r s; c := c s; next := next s; freed := freed s; published := published s; answers := a :: answers s |}.

Definition ids (o : option nat) : list nat := match o with Some i => [i] | None => [] end.

(** The lock: who has it. *)
Definition reading (p : rpc) : bool := match p with R_idle | R_want _ => false | _ => true end.
Definition writing (p : wpc) : bool := match p with W_in _ _ _ | W_in_base _ _ | W_in_serial _ _ | W_in_all _ => true | _ => false end.

(** src/rtr/db/deltas_array.c:44-60 [darray_add]: what stays, and what is released ([capacity]: deltas.lifetime). *)
Definition darray_add (capacity : nat) (l : list nat) (d : nat) : list nat * list nat :=
  if Nat.ltb (length l) capacity then (l ++ [d], []) else (tl l ++ [d], firstn 1 l).

Section Threads.
  Variable capacity : nat.

  (** The thread that updates: src/rtr/db/vrps.c:180-238 [__vrps_update], 250-283 [vrps_update]. *)
  Inductive wstep : state -> state -> Prop :=
  | w_start s : w s = W_idle -> wstep s (set_w s (W_validating (base s)))
  | w_invalid s old : w s = W_validating old -> wstep s (set_w s W_stats_want)
  | w_valid s old : w s = W_validating old -> wstep s (set_w (allocate s) (W_validated old (next s)))
  | w_slurm_fails s old new : w s = W_validated old new -> wstep s (set_w (free s [new]) W_stats_want)
  | w_slurm s old new : w s = W_validated old new -> wstep s (set_w s (W_comparing old new))
  | w_first s new : w s = W_comparing None new -> wstep s (set_w s (W_want None new None))
  | w_same s old new : w s = W_comparing (Some old) new -> wstep s (set_w (free s [new]) W_stats_want)
  | w_differs s old new : w s = W_comparing (Some old) new -> wstep s (set_w (allocate s) (W_want (Some old) new (Some (next s))))
  | w_lock s old new d : w s = W_want old new d -> (forall t, reading (r s t) = false) -> wstep s (set_w s (W_in old new d))
  | w_base s old new d : w s = W_in old new d -> wstep s (set_w (set_data s (Some new) (serial s) (deltas s)) (W_in_base old d))
  | w_serial s old d : w s = W_in_base old d -> wstep s (set_w (set_data s (base s) (wrap32 (serial s + 1)) (deltas s)) (W_in_serial old d))
  | w_deltas s old d l x : w s = W_in_serial old (Some d) -> darray_add capacity (deltas s) d = (l, x) ->
      wstep s (set_w (free (set_data s (base s) (serial s) l) x) (W_in_all old))
  | w_no_deltas s old : w s = W_in_serial old None -> wstep s (set_w s (W_in_all old))
  | w_unlock s old : w s = W_in_all old -> wstep s (set_w (publish s) (W_free old))
  | w_free s old : w s = W_free old -> wstep s (set_w (free s (ids old)) W_stats_want)
  | w_stats_lock s : w s = W_stats_want -> wstep s (set_w s W_stats)
  | w_stats s : w s = W_stats -> wstep s (set_w (match base s with Some b => answer s (S_stats b (serial s)) | None => s end) W_idle).

  (** A thread that answers: src/rtr/db/vrps.c:291-311 [vrps_foreach_base], 388-474 [vrps_foreach_delta_since], 476-493 [get_last_serial_number];
      src/rtr/pdu_sender.c:51-83 [send_response] waits for the client. *)
  Inductive rstep (t : nat) : state -> state -> Prop :=
  | r_query s q : r s t = R_idle -> rstep t s (set_r s t (R_want q))
  | r_lock s q : r s t = R_want q -> writing (w s) = false -> rstep t s (set_r s t (R_in q))
  | r_lock_fails s q : r s t = R_want q -> rstep t s (set_r s t R_idle)
  | r_no_data s q : r s t = R_in q -> base s = None -> rstep t s (set_r s t R_idle)
  | r_table s b n : r s t = R_in QBase -> base s = Some b -> rstep t s (set_r s t (R_table b n))
  | r_next s b n : r s t = R_table b (S n) -> rstep t s (set_r s t (R_table_send b n))
  | r_sent s b n : r s t = R_table_send b n -> c s t = Reads -> rstep t s (set_r s t (R_table b n))
  | r_gone s b n : r s t = R_table_send b n -> c s t = Gone -> rstep t s (set_r s t R_idle)
  | r_table_end s b : r s t = R_table b 0 -> rstep t s (set_r (answer s (S_table b)) t R_idle)
  | r_not_in_deltas s b : r s t = R_in QDelta -> base s = Some b -> rstep t s (set_r s t R_idle)     (* up to date, or not known *)
  | r_deltas s b k n : r s t = R_in QDelta -> base s = Some b -> rstep t s (set_r s t (R_deltas (skipn k (deltas s)) n))
  | r_copied s ds n : r s t = R_deltas ds n -> rstep t s (set_r s t (R_deltas_send ds n))
  | r_delta_sent s ds n : r s t = R_deltas_send ds (S n) -> c s t = Reads -> rstep t s (set_r s t (R_deltas_send ds n))
  | r_delta_gone s ds n : r s t = R_deltas_send ds (S n) -> c s t = Gone -> rstep t s (set_r s t (R_deltas_send ds n))
  | r_deltas_end s ds : r s t = R_deltas_send ds 0 -> rstep t s (set_r (answer s (S_deltas ds (serial s))) t R_idle)
  | r_serial s b : r s t = R_in QSerial -> base s = Some b -> rstep t s (set_r (answer s (S_serial (serial s))) t R_idle).

  Inductive step : state -> state -> Prop :=
  | updater s s' : wstep s s' -> step s s'
  | reader t s s' : rstep t s s' -> step s s'
  | client_does t x s : step s (set_c s t x).
End Threads.

(** After vrps_init(). *)
Definition initial (s : state) : Prop :=
  base s = None /\ deltas s = [] /\ w s = W_idle /\ (forall t, r s t = R_idle) /\ next s = O /\ freed s = [] /\ published s = [] /\ answers s = [].
