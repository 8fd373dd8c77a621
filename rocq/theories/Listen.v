(** The listening sockets of the RTR server: src/rtr/rtr.c.

    Not modelled: messages (so neither is_wildcard() nor get_best_printable()), memory. *)
From Verif Require Import Base CString Tal.
Notation length := List.length.

(** struct addrinfo: the members used. *)
Record address := { a_family : Z; a_bytes : list Z; a_port : Z }.
(** A socket, in the system's table. *)
Record sock := { k_fd : Z; k_family : Z; k_nonblock : bool; k_reuse : bool; k_bound : option address; k_backlog : option Z }.
(** The system: getaddrinfo() (an error, which isn't 0, or addresses); the descriptor it chooses, given the ones in use;
    and the errno of the n-th of the other calls (0: it succeeds). *)
Record os := { o_resolve : option (list Z) -> list Z -> Z + list address; o_fresh : list Z -> Z; o_fails : nat -> Z }.
Record kernel := { open : list sock; clock : nat }.

Definition change (fd : Z) (f : sock -> sock) (l : list sock) : list sock := map (fun s => if k_fd s =? fd then f s else s) l.
(** A call on the socket [fd]: errno, or its effect. *)
Definition call (o : os) (fd : Z) (f : sock -> sock) (st : kernel) : Z * kernel :=
  let e := o_fails o (clock st) in
  if e =? 0 then (0, {| open := change fd f (open st); clock := S (clock st) |}) else (e, {| open := open st; clock := S (clock st) |}).
(** socket(): errno, and the descriptor (-1 if it fails). *)
Definition sys_socket (o : os) (family : Z) (st : kernel) : Z * Z * kernel :=
  let e := o_fails o (clock st) in
  let fd := o_fresh o (map k_fd (open st)) in
  if e =? 0 then (0, fd, {| open := open st ++ [{| k_fd := fd; k_family := family; k_nonblock := false; k_reuse := false; k_bound := None; k_backlog := None |}]; clock := S (clock st) |})
  else (e, -1, {| open := open st; clock := S (clock st) |}).
Definition sys_close (fd : Z) (st : kernel) : kernel := {| open := filter (fun s => negb (k_fd s =? fd)) (open st); clock := clock st |}.

(** O_NONBLOCK, SO_REUSEADDR, bind(), listen(). *)
Definition get_flags (s : sock) : sock := s.
Definition with_nonblock (s : sock) : sock := {| k_fd := k_fd s; k_family := k_family s; k_nonblock := true; k_reuse := k_reuse s; k_bound := k_bound s; k_backlog := k_backlog s |}.
Definition with_reuse (s : sock) : sock := {| k_fd := k_fd s; k_family := k_family s; k_nonblock := k_nonblock s; k_reuse := true; k_bound := k_bound s; k_backlog := k_backlog s |}.
Definition with_bound (a : address) (s : sock) : sock := {| k_fd := k_fd s; k_family := k_family s; k_nonblock := k_nonblock s; k_reuse := k_reuse s; k_bound := Some a; k_backlog := k_backlog s |}.
Definition with_backlog (n : Z) (s : sock) : sock := {| k_fd := k_fd s; k_family := k_family s; k_nonblock := k_nonblock s; k_reuse := k_reuse s; k_bound := k_bound s; k_backlog := Some n |}.

(** src/rtr/rtr.c:70-107 [parse_address]; [port]: server.port; NULL is [None]. *)
Definition parse_address (port : list Z) (full_address : option (list Z)) : res (option (list Z) * list Z) :=
  match full_address with
  | None => Ok (None, port)
  | Some full => match strrchr 35 full with
                 | None => Ok (Some full, port)
                 | Some ptr => match tl ptr with
                               | [] => Err EINVAL
                               | _ => Ok (Some (firstn (length full - length ptr) full), tl ptr)
                               end
                 end
  end.

(** src/rtr/rtr.c:184-206 [set_nonblock]. *)
Definition set_nonblock (o : os) (fd : Z) (st : kernel) : Z * kernel :=
  let '(e, st) := call o fd get_flags st in
  if negb (e =? 0) then (e, st) else call o fd with_nonblock st.

(** src/rtr/rtr.c:212-285 [create_server_socket]: the loop.  What it returns, and the array [servers] (of descriptors). *)
Fixpoint create_loop (o : os) (backlog : Z) (ais : list address) (st : kernel) (servers : list Z) : Z * kernel * list Z :=
  match ais with
  | [] => (0, st, servers)
  | ai :: ais =>
      let '(err, fd, st) := sys_socket o (a_family ai) st in
      let fail err st := (err, (if negb (fd =? -1) then sys_close fd st else st), servers) in
      if negb (err =? 0) then fail err st else
      let '(err, st) := set_nonblock o fd st in
      if negb (err =? 0) then fail err st else
      let '(err, st) := call o fd with_reuse st in
      if negb (err =? 0) then fail err st else
      let '(err, st) := call o fd (with_bound ai) st in
      if negb (err =? 0) then fail err st else
      let '(err, st) := call o fd (with_backlog backlog) st in
      if negb (err =? 0) then fail err st else
      create_loop o backlog ais st (servers ++ [fd])
  end.
Definition create_server_socket (o : os) (backlog : Z) (hostname : option (list Z)) (port : list Z) (st : kernel) (servers : list Z) : Z * kernel * list Z :=
  match o_resolve o hostname port with
  | inl err => (err, st, servers)
  | inr ais => create_loop o backlog ais st servers
  end.

(** src/rtr/rtr.c:287-307 [init_server_fd]. *)
Definition init_server_fd (o : os) (port : list Z) (backlog : Z) (input_addr : option (list Z)) (st : kernel) (servers : list Z) : Z * kernel * list Z :=
  match parse_address port input_addr with
  | Ok (address, service) => create_server_socket o backlog address service st servers
  | _ => (-22, st, servers)
  end.

(** src/rtr/rtr.c:309-330 [init_server_fds]; [addrs]: server.address. *)
Fixpoint init_loop (o : os) (port : list Z) (backlog : Z) (addrs : list (list Z)) (st : kernel) (servers : list Z) : Z * kernel * list Z :=
  match addrs with
  | [] => (0, st, servers)
  | a :: addrs =>
      let '(error, st, servers) := init_server_fd o port backlog (Some a) st servers in
      if negb (error =? 0) then (error, st, servers) else init_loop o port backlog addrs st servers
  end.
Definition init_server_fds (o : os) (port : list Z) (backlog : Z) (addrs : list (list Z)) (st : kernel) (servers : list Z) : Z * kernel * list Z :=
  match addrs with
  | [] => init_server_fd o port backlog None st servers
  | _ => init_loop o port backlog addrs st servers
  end.

(** src/rtr/rtr.c:49-55 [cleanup_server], [destroy_db]; there are no clients yet. *)
Definition cleanup_server (fd : Z) (st : kernel) : kernel := if negb (fd =? -1) then sys_close fd st else st.
Definition destroy_db (servers : list Z) (st : kernel) : kernel := fold_left (fun st fd => cleanup_server fd st) servers st.

(** src/rtr/rtr.c:676-705 [rtr_start]; [pool], [thread]: what thread_pool_create() and pthread_create() return.  What it returns, the system, and the
    sockets that the thread polls (none if it didn't start). *)
Definition rtr_start (o : os) (port : list Z) (backlog : Z) (addrs : list (list Z)) (pool thread : Z) (st : kernel) : Z * kernel * list Z :=
  let '(error, st, servers) := init_server_fds o port backlog addrs st [] in
  let revert_fds error := (error, destroy_db servers st, []) in
  if negb (error =? 0) then revert_fds error
  else if negb (pool =? 0) then revert_fds pool
  else if negb (thread =? 0) then revert_fds thread
  else (0, st, servers).
