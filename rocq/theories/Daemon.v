(** Model of src/daemon.c (--daemon): processes, their descriptors, sessions
    and syslog's connection.  The parts of the system that daemonize() uses are
    modelled; which calls fail is an argument.  Process groups, signals other
    than SIGHUP's disposition, and the buffers of stdio are not modelled.
    Memory is released by exit(). *)
From Verif Require Import Base.
Notation length := List.length.

(** What a descriptor is: the connection of syslog(), a file, a socket that listens, the connection of a client. *)
Inductive fd_kind : Type := FdSyslog | FdFile | FdListener | FdClient.
Record process := {
  p_pid : Z; p_parent : Z; p_session : Z; p_tty : bool; p_fds : list (Z * fd_kind); p_umask : Z; p_cwd : list Z;
  p_hup_ignored : bool;
  p_syslog : option Z;     (* the descriptor of syslog()'s connection, if it thinks it has one *)
  p_logs : bool            (* whether log_cb() (log_start()) was called *)
}.
(** What the system answers: an error, or a result. *)
Record answers := {
  a_cwd : option Z; a_fork1 : Z + Z; a_setsid : option Z; a_fork2 : Z + Z; a_open_max : Z; a_chdir : option Z }.
Inductive fate : Type := Exits (status : Z) | Returns (error : Z).

(** fork(), in the child. *)
Definition child_of (p : process) (pid : Z) : process :=
  {| p_pid := pid; p_parent := p_pid p; p_session := p_session p; p_tty := p_tty p; p_fds := p_fds p; p_umask := p_umask p; p_cwd := p_cwd p;
     p_hup_ignored := p_hup_ignored p; p_syslog := p_syslog p; p_logs := p_logs p |}.
(** log_cb(). *)
Definition start_logs (p : process) : process :=
  {| p_pid := p_pid p; p_parent := p_parent p; p_session := p_session p; p_tty := p_tty p; p_fds := p_fds p; p_umask := p_umask p; p_cwd := p_cwd p;
     p_hup_ignored := p_hup_ignored p; p_syslog := p_syslog p; p_logs := true |}.
(** setsid(): a session without a terminal, of which the process is the leader. *)
Definition setsid (p : process) : process :=
  {| p_pid := p_pid p; p_parent := p_parent p; p_session := p_pid p; p_tty := false; p_fds := p_fds p; p_umask := p_umask p; p_cwd := p_cwd p;
     p_hup_ignored := p_hup_ignored p; p_syslog := p_syslog p; p_logs := p_logs p |}.
(** signal(SIGHUP, SIG_IGN). *)
Definition ignore_hup (p : process) : process :=
  {| p_pid := p_pid p; p_parent := p_parent p; p_session := p_session p; p_tty := p_tty p; p_fds := p_fds p; p_umask := p_umask p; p_cwd := p_cwd p;
     p_hup_ignored := true; p_syslog := p_syslog p; p_logs := p_logs p |}.
(** close(). *)
Definition close_fd (fds : list (Z * fd_kind)) (fd : Z) : list (Z * fd_kind) := filter (fun e => negb (fst e =? fd)) fds.
(** src/daemon.c:89-94: from [fds] to 0 (which syslog() doesn't know of); [fds] is negative if sysconf() doesn't know. *)
Definition close_all (fds : list (Z * fd_kind)) (open_max : Z) : list (Z * fd_kind) :=
  fold_left (fun fds n => close_fd fds (open_max - Z.of_nat n)) (seq 0 (Z.to_nat (open_max + 1))) fds.
Definition clean (p : process) (open_max : Z) : process :=
  {| p_pid := p_pid p; p_parent := p_parent p; p_session := p_session p; p_tty := p_tty p; p_fds := close_all (p_fds p) open_max; p_umask := 0; p_cwd := p_cwd p;
     p_hup_ignored := p_hup_ignored p; p_syslog := p_syslog p; p_logs := p_logs p |}.
(** The process becomes init's when its parent exits. *)
Definition orphan (p : process) : process :=
  {| p_pid := p_pid p; p_parent := 1; p_session := p_session p; p_tty := p_tty p; p_fds := p_fds p; p_umask := p_umask p; p_cwd := p_cwd p;
     p_hup_ignored := p_hup_ignored p; p_syslog := p_syslog p; p_logs := p_logs p |}.

(** src/daemon.c:25-108 [daemonize]: what becomes of the process, and of those that it creates.  (The parents exit
    before their children end.) *)
Definition daemonize (a : answers) (p : process) : list (process * fate) :=
  if p_parent p =? 1 then [(p, Returns 0)]
  else match a_cwd a with
  | Some e => [(p, Returns e)]
  | None =>
      match a_fork1 a with
      | inl e => [(p, Returns e)]
      | inr pid1 =>
          let c := start_logs (orphan (child_of p pid1)) in
          (p, Exits 0) ::
          match a_setsid a with
          | Some e => [(c, Exits e)]
          | None =>
              let c := ignore_hup (setsid c) in
              match a_fork2 a with
              | inl e => [(c, Exits e)]
              | inr pid2 =>
                  let d := clean (orphan (child_of c pid2)) (a_open_max a) in
                  (c, Exits 0) ::
                  match a_chdir a with
                  | Some e => [(d, Exits e)]
                  | None => [(d, Returns 0)]
                  end
              end
          end
      end
  end.

(** ** What the process does next *)

(** The lowest number that isn't open. *)
Definition lowest (fds : list (Z * fd_kind)) : Z :=
  match find (fun n => negb (existsb (fun e => fst e =? n) fds)) (map Z.of_nat (seq 0 (S (length fds)))) with Some n => n | None => 0 end.
(** open(), socket(), accept(); close() of one's own descriptors; syslog(). *)
Inductive operation : Type := OpOpen (k : fd_kind) | OpClose (fd : Z) | OpLog (text : list Z).
(** Where a text of the log went; and what syslog() closes. *)
Inductive event : Type := ToLog (text : list Z) | ToClient (fd : Z) (text : list Z) | Closes (fd : Z) (k : fd_kind).
Definition with_fds (p : process) (fds : list (Z * fd_kind)) (s : option Z) : process :=
  {| p_pid := p_pid p; p_parent := p_parent p; p_session := p_session p; p_tty := p_tty p; p_fds := fds; p_umask := p_umask p; p_cwd := p_cwd p;
     p_hup_ignored := p_hup_ignored p; p_syslog := s; p_logs := p_logs p |}.
Definition kind_at (p : process) (fd : Z) : option fd_kind := option_map snd (find (fun e => fst e =? fd) (p_fds p)).
(** glibc's openlog_internal(). *)
Definition reconnect (p : process) : process :=
  let n := lowest (p_fds p) in with_fds p ((n, FdSyslog) :: p_fds p) (Some n).
(** glibc's __vsyslog_internal(): send() to its descriptor; if that fails, it closes it and connects again. *)
Definition syslog (p : process) (text : list Z) : process * list event :=
  match p_syslog p with
  | None => (reconnect p, [ToLog text])
  | Some fd =>
      match kind_at p fd with
      | Some FdSyslog => (p, [ToLog text])
      | Some FdClient => (p, [ToClient fd text])
      | Some k => (reconnect (with_fds p (close_fd (p_fds p) fd) None), [Closes fd k; ToLog text])
      | None => (reconnect (with_fds p (p_fds p) None), [ToLog text])
      end
  end.
Definition do_op (p : process) (o : operation) : process * list event :=
  match o with
  | OpOpen k => (with_fds p ((lowest (p_fds p), k) :: p_fds p) (p_syslog p), [])
  | OpClose fd => (with_fds p (close_fd (p_fds p) fd) (p_syslog p), [])
  | OpLog text => syslog p text
  end.
Fixpoint do_ops (p : process) (l : list operation) : process * list event :=
  match l with
  | [] => (p, [])
  | o :: l => let (p, ev) := do_op p o in let (p, evs) := do_ops p l in (p, ev ++ evs)
  end.
