(** Downloads by rsync: src/rsync/rsync.c.  System calls and the child are oracles. *)
From Coq Require Import String.
From Verif Require Import Base CString.
Notation length := List.length.

(** src/rsync/rsync.c:51-83 [prepare_rsync]: the child's argv (the NULL at the end isn't shown). *)
Definition prepare_rsync (program : list Z) (args : list (list Z)) (src dst : list Z) : list (list Z) :=
  program :: map (fun a => if list_eqb Z.eqb a (cstr "$REMOTE") then src else if list_eqb Z.eqb a (cstr "$LOCAL") then dst else a) args.

(** What happens to descriptors and children. *)
Inductive action :=
| AOpen (fd : Z)     (* pipe() returned it *)
| AClose (fd : Z)
| AFork (pid : Z)
| AKill (pid : Z)    (* SIGTERM *)
| AReap (pid : Z)    (* waitpid() returned its status *)
| ASleep.

(** What read() returns: an error, 1 to 4096 bytes, or the end of the stream. *)
Inductive read_result := RdError (errno : Z) | RdData | RdEnd.
(** What poll() says of a descriptor: nothing, POLLNVAL, POLLERR, or POLLIN or POLLHUP; then, what reading it returns. *)
Inductive revent := EvNone | EvNval | EvErr | EvIn (r : read_result).
(** An iteration of the loop: poll()'s result, and in the last case, get_current_millis() - epoch at the end of the iteration. *)
Inductive poll_event := PTimeout | PError (errno : Z) | PReady (ev0 ev1 : revent) (delta : Z).

Definition E_INTR : Z := 4.

(** src/rsync/rsync.c:183-266 [exhaust_read_fds], the body of the for: DROP_FD, CLOSE_FD.  The descriptor, [error], and what was done.  poll() says nothing of descriptor -1 (None). *)
Definition handle_fd (fd : option Z) (ev : revent) (error : Z) : option Z * Z * list action :=
  match fd with
  | None => (None, error, [])
  | Some n =>
      match ev with
      | EvNone => (Some n, error, [])
      | EvNval => (None, Z.lor error 1, [])
      | EvErr => (None, Z.lor error 1, [AClose n])
      | EvIn (RdError e) => if e =? E_INTR then (Some n, e, []) else (None, Z.lor e 1, [AClose n])
      | EvIn RdEnd => (None, Z.lor error 0, [AClose n])
      | EvIn RdData => (Some n, error, [])
      end
  end.
Definition close_fd (fd : option Z) : list action := match fd with Some n => [AClose n] | None => [] end.

(** src/rsync/rsync.c:183-266 [exhaust_read_fds]; None: it hasn't returned when there are no more events. *)
Fixpoint exhaust_read_fds (timeout : Z) (fd0 fd1 : option Z) (error : Z) (evs : list poll_event) : option Z * list action :=
  match evs with
  | [] => (None, [])
  | PTimeout :: _ => (Some 2, close_fd fd0 ++ close_fd fd1)
  | PError e :: evs => if e =? E_INTR then exhaust_read_fds timeout fd0 fd1 e evs else (Some 1, close_fd fd0 ++ close_fd fd1)
  | PReady ev0 ev1 delta :: evs =>
      let '(fd0, error, log0) := handle_fd fd0 ev0 error in
      let '(fd1, error, log1) := handle_fd fd1 ev1 error in
      let log := log0 ++ log1 in
      match fd0, fd1 with
      | None, None => (Some error, log)
      | _, _ =>
          if delta <? 0 then (Some 1, log ++ close_fd fd0 ++ close_fd fd1)
          else if timeout <=? delta then (Some 2, log ++ close_fd fd0 ++ close_fd fd1)
          else let '(r, log') := exhaust_read_fds timeout fd0 fd1 error evs in (r, log ++ log')
      end
  end.

(** waitpid(): an error (then it stores nothing, so child_status is 0), a status, or it doesn't return. *)
Inductive wait_result := WError (errno : Z) | WExited (code : Z) | WSignaled (sig : Z) | WOther | WNever.
(** An iteration of rsync_download()'s loop: what pipe(), pipe(), fork(), poll() and waitpid() return. *)
Record run := {
  ru_pipe1 : Z * Z + Z; (* read and write ends, or errno *)
  ru_pipe2 : Z * Z + Z;
  ru_fork : Z + Z;      (* the child, or errno *)
  ru_polls : list poll_event;
  ru_wait : wait_result
}.

(** src/rsync/rsync.c:103-126 [create_pipes]: (stderr, stdout), each (read, write), or the error. *)
Definition create_pipes (r : run) : (Z * Z) * (Z * Z) + Z :=
  match ru_pipe1 r with
  | inr e => inr (- e)
  | inl a => match ru_pipe2 r with inr e => inr (- e) | inl b => inl (a, b) end
  end.
Definition create_pipes_log (r : run) : list action :=
  match ru_pipe1 r with
  | inr _ => []
  | inl (a, b) => [AOpen a; AOpen b] ++ match ru_pipe2 r with inr _ => [AClose a; AClose b] | inl (c, d) => [AOpen c; AOpen d] end
  end.

(** How rsync_download() ends: it returns this, or it hasn't. *)
Inductive outcome := Returns (error : Z) | Waits.

(** src/rsync/rsync.c:286-423 [rsync_download]: the loop and what follows it.  [more]: rsync.retry.count - retries.  (exit status: 0 to 255) *)
Fixpoint attempts (timeout : Z) (runs : nat -> run) (more i : nat) : outcome * list action :=
  let r := runs i in
  let log := create_pipes_log r in
  match create_pipes r with
  | inr e => (Returns e, log)
  | inl ((er, ew), (orr, ow)) =>
      match ru_fork r with
      | inr e => (Returns e, log ++ [AClose er; AClose orr; AClose ew; AClose ow])
      | inl pid =>
          let '(x, log1) := exhaust_read_fds timeout (Some er) (Some orr) 0 (ru_polls r) in
          let log := log ++ [AFork pid; AClose ew; AClose ow] ++ log1 in
          match x with
          | None => (Waits, log)
          | Some error =>
              let log := log ++ (if error =? 0 then [] else [AKill pid]) in
              match ru_wait r with
              | WNever => (Waits, log)
              | WError e => (Returns e, log)
              | WExited code =>
                  let log := log ++ [AReap pid] in
                  if code =? 0 then (Returns 0, log)
                  else match more with
                       | O => (Returns 5, log)
                       | S more => let '(o, log') := attempts timeout runs more (S i) in (o, log ++ [ASleep] ++ log')
                       end
              | WSignaled sig => (Returns (- E_INTR), log ++ [AReap pid])
              | WOther => (Returns (-22), log ++ [AReap pid])
              end
          end
      end
  end.
(** src/rsync/rsync.c:286-423 [rsync_download]. *)
Definition rsync_download (mkdir : Z) (timeout : Z) (retries : nat) (runs : nat -> run) : outcome * list action :=
  if negb (mkdir =? 0) then (Returns mkdir, []) else attempts timeout runs retries 0.
