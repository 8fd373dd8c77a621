(** C80, C81: who gets what. *)
From Verif Require Import Base Types PduHandler PduStream Rtr RtrRun.
Notation length := List.length.

(** Something holds of every step, when it's taken. *)
Fixpoint always (P : run -> step -> Prop) (r : run) (ss : list step) : Prop :=
  match ss with
  | [] => True
  | s :: ss => P r s /\ match run_step r s with Some r => always P r ss | None => True end
  end.
(** There is an unfinished task for the descriptor. *)
Definition busy (r : run) (fd : Z) : Prop := exists j, In j (rn_jobs r) /\ jb_done j = false /\ jb_fd j = fd.
(** Connections aren't closed while they're being answered. *)
Definition patient (r : run) (s : step) : Prop := match s with Poll (Closed fd) => ~ busy r fd | _ => True end.
(** Nor is another query of theirs read. *)
Definition one_at_a_time (r : run) (s : step) : Prop := match s with Poll (Pushed fd _) | Poll (Wrote fd _) => ~ busy r fd | _ => True end.

(** What the poll thread did. *)
Definition polls (ss : list step) : list action := flat_map (fun s => match s with Poll a => [a] | _ => [] end) ss.
(** What task [k] wrote. *)
Definition written (k : nat) (ss : list step) : list (list Z) := flat_map (fun s => match s with Write j b => if Nat.eqb j k then [b] else [] | _ => [] end) ss.
(** What connection [n] received from task [k]. *)
Definition received (n k : nat) (log : list entry) : list (list Z) :=
  flat_map (fun e => match en_to e, en_from e with Conn m, Some j => if Nat.eqb m n && Nat.eqb j k then [en_bytes e] else [] | _, _ => [] end) log.
(** [e] is an answer to the task that asked for it. *)
Definition delivered (r : run) (e : entry) : Prop :=
  forall k j, en_from e = Some k -> nth_error (rn_jobs r) k = Some j -> en_to e = Conn (jb_conn j).
(** Whenever two tasks wrote to a connection, the one that was asked first wrote
    first. *)
Definition in_turns (log : list entry) : Prop :=
  forall l1 e1 l2 e2 l3 n a b, log = l1 ++ e1 :: l2 ++ e2 :: l3 ->
    en_to e1 = Conn n -> en_to e2 = Conn n -> en_from e1 = Some a -> en_from e2 = Some b -> (a <= b)%nat.
