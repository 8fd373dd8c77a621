(** C103: daemons. *)
From Verif Require Import Base Daemon.

(** A daemon: no terminal, and it can't get one because it isn't the leader of its session; its parent is init; it has no
    descriptors; SIGHUP doesn't end it; its files get the permissions that they are created with; it's where the user was. *)
Definition is_daemon (started d : process) : Prop :=
  p_tty d = false /\ p_session d <> p_pid d /\ p_session d <> p_session started /\ p_parent d = 1 /\ p_fds d = [] /\ p_hup_ignored d = true /\
  p_umask d = 0 /\ p_cwd d = p_cwd started /\ p_logs d = true.

(** Nothing fails, and the system's processes have different numbers; its table of descriptors has [a_open_max] of them. *)
Definition all_well (a : answers) (p : process) : Prop :=
  a_cwd a = None /\ a_setsid a = None /\ a_chdir a = None /\
  (exists c d, a_fork1 a = inr c /\ a_fork2 a = inr d /\ c <> d /\ c <> p_session p) /\
  Forall (fun e => 0 <= fst e < a_open_max a) (p_fds p).
(** Errors aren't 0 (errno). *)
Definition errors (a : answers) : Prop :=
  a_cwd a <> Some 0 /\ a_fork1 a <> inl 0 /\ a_setsid a <> Some 0 /\ a_fork2 a <> inl 0 /\ a_chdir a <> Some 0.
Definition goes_on (r : list (process * fate)) (d : process) : Prop := In (d, Returns 0) r.
Definition is_exit (f : fate) : Prop := exists n, f = Exits n.

(** The program opens descriptors other than syslog's, and closes only those. *)
Definition own (l : list operation) : Prop := ~ In (OpOpen FdSyslog) l.
Fixpoint closes_own (p : process) (l : list operation) : Prop :=
  match l with
  | [] => True
  | o :: l => match o with OpClose fd => kind_at p fd <> Some FdSyslog | _ => True end /\ closes_own (fst (do_op p o)) l
  end.
Definition logged (l : list operation) : list (list Z) := flat_map (fun o => match o with OpLog t => [t] | _ => [] end) l.
(** The texts that are logged get to the log, and that's all syslog() does. *)
Definition logs_well (l : list operation) (evs : list event) : Prop := evs = map ToLog (logged l).
(** Before anything is logged, or if the connection is there. *)
Definition connection_ok (p : process) : Prop :=
  match p_syslog p with None => True | Some fd => kind_at p fd = Some FdSyslog end.
