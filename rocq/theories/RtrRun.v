(** The poll thread of the RTR server (Rtr.v), the workers that write the answers,
    and the rest of the process, which opens files too. *)
From Verif Require Import Base Types PduHandler PduStream Rtr.
Notation length := List.length.

(** What a descriptor refers to: a client's connection, or something else.
    Connections are numbered as they are accepted (a ghost: the program only knows
    the descriptor). *)
Inductive owner := Conn (n : nat) | Foreign.
(** A task of the thread pool: src/rtr/pdu_stream.h:10-34 [struct rtr_request] (whose
    [fd] is that of the stream it was read from, src/rtr/pdu_stream.c:459-475), the
    connection (ghost), and whether it's finished. *)
Record job := { jb_fd : Z; jb_conn : nat; jb_request : request; jb_done : bool }.
(** Bytes that were written: to what, by which task (None: by the poll thread). *)
Record entry := { en_to : owner; en_from : option nat; en_bytes : list Z }.
Record run := { rn_fds : list (Z * owner); rn_conns : nat; rn_jobs : list job; rn_log : list entry }.

Fixpoint owner_of (fd : Z) (l : list (Z * owner)) : option owner :=
  match l with [] => None | (f, o) :: l => if f =? fd then Some o else owner_of fd l end.
Definition forget (fd : Z) (l : list (Z * owner)) : list (Z * owner) := filter (fun p => negb (fst p =? fd)) l.

Inductive step :=
| Poll (a : action)              (* the poll thread does this *)
| Write (k : nat) (b : list Z)   (* task k writes a PDU: src/rtr/pdu_sender.c:51-83 [send_response] *)
| Finish (k : nat)               (* task k returns *)
| OpenFile (fd : Z)              (* the rest of the process: caches, logs, sockets of HTTP... *)
| CloseFile (fd : Z).

(** [None]: the step isn't possible.  Tasks run in parallel (there are up to
    server.thread-pool workers), so any task that isn't finished may write; a
    write() to a descriptor that isn't open fails (EBADF), and nothing else
    happens. *)
Definition run_step (r : run) (s : step) : option run :=
  match s with
  | Poll (Opened fd) | OpenFile fd =>
      match owner_of fd (rn_fds r) with
      | Some _ => None
      | None =>
          match s with
          | Poll _ => Some {| rn_fds := (fd, Conn (rn_conns r)) :: rn_fds r; rn_conns := S (rn_conns r); rn_jobs := rn_jobs r; rn_log := rn_log r |}
          | _ => Some {| rn_fds := (fd, Foreign) :: rn_fds r; rn_conns := rn_conns r; rn_jobs := rn_jobs r; rn_log := rn_log r |}
          end
      end
  | Poll (Closed fd) => Some {| rn_fds := forget fd (rn_fds r); rn_conns := rn_conns r; rn_jobs := rn_jobs r; rn_log := rn_log r |}
  | CloseFile fd =>
      match owner_of fd (rn_fds r) with
      | Some Foreign => Some {| rn_fds := forget fd (rn_fds r); rn_conns := rn_conns r; rn_jobs := rn_jobs r; rn_log := rn_log r |}
      | _ => None
      end
  | Poll (Pushed fd q) =>
      (* src/rtr/rtr.c:461-462 *)
      match owner_of fd (rn_fds r) with
      | Some (Conn n) => Some {| rn_fds := rn_fds r; rn_conns := rn_conns r; rn_jobs := rn_jobs r ++ [{| jb_fd := fd; jb_conn := n; jb_request := q; jb_done := false |}]; rn_log := rn_log r |}
      | _ => None
      end
  | Poll (Wrote fd b) =>
      match owner_of fd (rn_fds r) with
      | Some o => Some {| rn_fds := rn_fds r; rn_conns := rn_conns r; rn_jobs := rn_jobs r; rn_log := rn_log r ++ [{| en_to := o; en_from := None; en_bytes := b |}] |}
      | None => None
      end
  | Write k b =>
      match nth_error (rn_jobs r) k with
      | Some j =>
          if jb_done j then None
          else match owner_of (jb_fd j) (rn_fds r) with
               | Some o => Some {| rn_fds := rn_fds r; rn_conns := rn_conns r; rn_jobs := rn_jobs r; rn_log := rn_log r ++ [{| en_to := o; en_from := Some k; en_bytes := b |}] |}
               | None => Some r
               end
      | None => None
      end
  | Finish k =>
      (* src/rtr/rtr.c:332-354 [handle_client_request]; what shutdown() does is left out. *)
      match nth_error (rn_jobs r) k with
      | Some j =>
          if jb_done j then None
          else Some {| rn_fds := rn_fds r; rn_conns := rn_conns r; rn_jobs := upd (rn_jobs r) k {| jb_fd := jb_fd j; jb_conn := jb_conn j; jb_request := jb_request j; jb_done := true |}; rn_log := rn_log r |}
      | None => None
      end
  end.
Fixpoint exec (r : run) (ss : list step) : option run :=
  match ss with
  | [] => Some r
  | s :: ss => match run_step r s with Some r => exec r ss | None => None end
  end.

(** src/rtr/rtr.c:676-705 [rtr_start]: there are only the listening sockets. *)
Definition started (sockets : list Z) : run := {| rn_fds := map (fun fd => (fd, Foreign)) sockets; rn_conns := 0; rn_jobs := []; rn_log := [] |}.
