(** The poll thread of the RTR server: src/rtr/rtr.c. *)
From Verif Require Import Base Types PduHandler PduStream.
Notation length := List.length.

(** An element of the [clients] array list (src/rtr/rtr.c:34-35): a struct
    pdu_stream (PduStream.v) and its descriptor. *)
Record client := { cl_fd : Z; cl_stream : pstream }.
(** src/rtr/rtr.c:37-38: [servers] (the descriptors of the listening sockets; -1:
    closed) and [clients]. *)
Record server := { sv_servers : list Z; sv_clients : list client }.

(** What poll() says of a descriptor: POLLHUP, POLLERR or POLLNVAL; and POLLIN. *)
Record revents := { ev_bad : bool; ev_in : bool }.
(** accept(): a descriptor, and whether set_nonblock() works on it; or errno. *)
Inductive accepting := Accepted (fd : Z) (nonblock : bool) | NotAccepted (errno : Z).
Record server_event := { se_revents : revents; se_accept : accepting }.
(** What there is to read from a client, and what becomes of an answer (which
    pdustream_next() only writes if there is an error). *)
Record client_event := { ce_revents : revents; ce_reads : list read_ev; ce_sends : list send_outcome }.
(** poll(): with stop_server_thread set; no descriptors; errno; or some. *)
Inductive polled := PollStopped | PollNone | PollError (errno : Z) | PollSome.
Record poll_event := { pe_polled : polled; pe_servers : list server_event; pe_clients : list client_event }.

(** What the thread does. *)
Inductive action :=
| Opened (fd : Z)                    (* accept() *)
| Closed (fd : Z)                    (* close() *)
| Pushed (fd : Z) (r : request)      (* thread_pool_push() of a request from there *)
| Wrote (fd : Z) (bytes : list Z).

(** src/rtr/rtr.c:40-44 [enum poll_verdict]. *)
Inductive poll_verdict := PV_CONTINUE | PV_RETRY | PV_STOP.
(** src/rtr/rtr.c:364-368 [enum accept_verdict]. *)
Inductive accept_verdict := AV_SUCCESS | AV_CLIENT_ERROR | AV_SERVER_ERROR.

(** src/rtr/rtr.c:395-404: ENETDOWN, EPROTO, ENOPROTOOPT, EHOSTDOWN, ENONET,
    EHOSTUNREACH, EOPNOTSUPP, ENETUNREACH, EAGAIN (which is EWOULDBLOCK), on
    Linux. *)
Definition retried (errno : Z) : bool := existsb (Z.eqb errno) [100; 71; 92; 112; 64; 113; 95; 101; 11].

(** src/rtr/rtr.c:417-448 [accept_new_client], with src/rtr/rtr.c:374-415
    [handle_accept_result].  (client_arraylist_add() appends: see RtrNotify.v.) *)
Definition accept_new_client (a : accepting) (cs : list client) : list client * accept_verdict * list action :=
  match a with
  | NotAccepted e => (cs, if retried e then AV_CLIENT_ERROR else AV_SERVER_ERROR, [])
  | Accepted fd false => (cs, AV_CLIENT_ERROR, [Opened fd; Closed fd])
  | Accepted fd true => (cs ++ [{| cl_fd := fd; cl_stream := pdustream_create |}], AV_SUCCESS, [Opened fd])
  end.

(** src/rtr/rtr.c:606-627: the loop over the listening sockets; the [fd]s of their
    pollfds, afterwards. *)
Fixpoint server_loop (fds : list Z) (evs : list server_event) (cs : list client) : list Z * list client * list action :=
  match fds, evs with
  | fd :: fds, e :: evs =>
      let '(pfd, cs, acts) :=
        if fd =? -1 then (-1, cs, [])
        else if ev_bad (se_revents e) then (-1, cs, [])
        else if ev_in (se_revents e) then
          let '(cs, v, acts) := accept_new_client (se_accept e) cs in
          (match v with AV_SERVER_ERROR => -1 | _ => fd end, cs, acts)
        else (fd, cs, []) in
      let '(pfds, cs, acts') := server_loop fds evs cs in
      (pfd :: pfds, cs, acts ++ acts')
  | _, _ => ([], cs, [])
  end.

(** src/rtr/rtr.c:450-464 [__handle_client_request]: whether the connection goes
    on. *)
Definition handle_client (c : client) (e : client_event) : res (client * bool * list action) :=
  bind (pdustream_next (cl_stream c) {| sk_wire := []; sk_log := []; sk_oracle := ce_sends e |} (ce_reads e)) (fun o =>
  let wrote := match sk_wire (no_socket o) with [] => [] | b => [Wrote (cl_fd c) b] end in
  let c := {| cl_fd := cl_fd c; cl_stream := no_stream o |} in
  match no_result o with
  | None => Ok (c, false, wrote)
  | Some None => Ok (c, true, wrote)
  | Some (Some r) => Ok (c, true, wrote ++ [Pushed (cl_fd c) r])
  end).

(** src/rtr/rtr.c:629-644: the loop over the clients there were before; whether
    the [fd] of the pollfd is still theirs. *)
Fixpoint client_loop (cs : list client) (evs : list client_event) : res (list (client * bool) * list action) :=
  match cs, evs with
  | c :: cs, e :: evs =>
      bind (if ev_bad (ce_revents e) then Ok (c, false, [])
            else if ev_in (ce_revents e) then handle_client c e
            else Ok (c, true, [])) (fun '(c, alive, acts) =>
      bind (client_loop cs evs) (fun '(l, acts') => Ok ((c, alive) :: l, acts ++ acts')))
  | _, _ => Ok ([], [])
  end.

(** src/rtr/rtr.c:531-543: the first loop of [apply_pollfds]. *)
Fixpoint apply_servers (fds pfds : list Z) : list Z * list action :=
  match fds, pfds with
  | fd :: fds, pfd :: pfds =>
      let '(l, acts) := apply_servers fds pfds in
      if (pfd =? -1) && negb (fd =? -1) then (-1 :: l, Closed fd :: acts) else (fd :: l, acts)
  | _, _ => ([], [])
  end.

(** src/rtr/rtr.c:545-556: the second one; [None]: NULL. *)
Fixpoint apply_clients (cs : list (client * bool)) : list (option client) * list action :=
  match cs with
  | [] => ([], [])
  | (c, alive) :: cs =>
      let '(l, acts) := apply_clients cs in
      if negb alive && negb (cl_fd c =? -1) then (None :: l, Closed (cl_fd c) :: acts) else (Some c :: l, acts)
  end.

(** src/rtr/rtr.c:507-521 [delete_dead_clients]: the array and the new length. *)
Fixpoint compact (n src dst : nat) (a : list (option client)) : list (option client) * nat :=
  match n with
  | O => (a, dst)
  | S n =>
      match nth_error a src with
      | Some (Some c) => compact n (S src) (S dst) (upd a dst (Some c))
      | _ => compact n (S src) dst a
      end
  end.
(** Reading the first [n] elements of the array. *)
Fixpoint elements (l : list (option client)) : res (list client) :=
  match l with
  | [] => Ok []
  | None :: _ => UB
  | Some c :: l => bind (elements l) (fun l => Ok (c :: l))
  end.
Definition delete_dead_clients (a : list (option client)) : res (list client) :=
  let '(a, len) := compact (length a) 0 0 a in elements (firstn len a).

(** src/rtr/rtr.c:560-658 [fddb_poll].  Running out of memory ends the process
    ([Err]); so does pr_crit() ([UB]). *)
Definition fddb_poll (s : server) (e : poll_event) : res (server * poll_verdict * list action) :=
  let work :=
    let '(pfds, cs, acts1) := server_loop (sv_servers s) (pe_servers e) (sv_clients s) in
    let nclients := length (sv_clients s) in
    bind (client_loop (firstn nclients cs) (pe_clients e)) (fun '(l, acts2) =>
    let '(fds, acts3) := apply_servers (sv_servers s) pfds in
    let '(a, acts4) := apply_clients l in
    bind (delete_dead_clients (a ++ map Some (skipn nclients cs))) (fun cs =>
    Ok ({| sv_servers := fds; sv_clients := cs |}, PV_CONTINUE, acts1 ++ acts2 ++ acts3 ++ acts4))) in
  match pe_polled e with
  | PollStopped => Ok (s, PV_STOP, [])
  | PollNone => Ok (s, PV_CONTINUE, [])
  | PollError errno =>
      if errno =? 4 then Ok (s, PV_STOP, [])         (* EINTR *)
      else if errno =? 12 then Err (EOTHER 12)       (* ENOMEM *)
      else if errno =? 11 then Ok (s, PV_RETRY, [])  (* EAGAIN *)
      else if (errno =? 14) || (errno =? 22) then UB (* EFAULT, EINVAL *)
      else work
  | PollSome => work
  end.

(** src/rtr/rtr.c:660-674 [server_cb]: what is done as [es] happens; whether it
    goes on. *)
Fixpoint server_cb (s : server) (es : list poll_event) : res (server * bool * list action) :=
  match es with
  | [] => Ok (s, true, [])
  | e :: es =>
      bind (fddb_poll s e) (fun '(s, v, acts) =>
      match v with
      | PV_STOP => Ok (s, false, acts)
      | _ => bind (server_cb s es) (fun '(s, b, acts') => Ok (s, b, acts ++ acts'))
      end)
  end.
