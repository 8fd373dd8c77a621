(** C78, C79: descriptors and connections. *)
From Verif Require Import Base Types PduHandler PduStream Rtr.
Notation length := List.length.

(** The descriptors that are open after each action. *)
Definition open_step (open : list Z) (a : action) : list Z :=
  match a with
  | Opened fd => fd :: open
  | Closed fd => remove Z.eq_dec fd open
  | _ => open
  end.
Definition open_after (open : list Z) (acts : list action) : list Z := fold_left open_step acts open.

(** The kernel's part: accept() returns a descriptor that isn't in use. *)
Fixpoint kernel (open : list Z) (acts : list action) : Prop :=
  match acts with
  | [] => True
  | a :: acts => match a with Opened fd => 0 <= fd /\ ~ In fd open | _ => True end /\ kernel (open_step open a) acts
  end.
(** The program's part: nothing is used after it was closed, let alone closed
    again. *)
Fixpoint tidy (open : list Z) (acts : list action) : Prop :=
  match acts with
  | [] => True
  | a :: acts => match a with Opened _ => True | Closed fd | Pushed fd _ | Wrote fd _ => In fd open end /\ tidy (open_step open a) acts
  end.

(** The listening sockets, and the clients'. *)
Definition listening (s : server) : list Z := filter (fun fd => negb (fd =? -1)) (sv_servers s).
Definition owned (s : server) : list Z := listening s ++ map cl_fd (sv_clients s).
Definition well_formed (s : server) : Prop := NoDup (owned s) /\ Forall (fun fd => 0 <= fd) (owned s).
(** poll() answers for each descriptor. *)
Definition answers (s : server) (e : poll_event) : Prop :=
  length (pe_servers e) = length (sv_servers s) /\ length (pe_clients e) = length (sv_clients s).

(** So it does all along. *)
Fixpoint answered (s : server) (es : list poll_event) : Prop :=
  match es with
  | [] => True
  | e :: es => answers s e /\ match fddb_poll s e with Ok (s, v, _) => answered s es | _ => True end
  end.

(** What becomes of a client, and what it asks for. *)
Inductive outcome (c : client) (e : client_event) : option client -> list request -> Prop :=
| out_bad : ev_bad (ce_revents e) = true -> outcome c e None []
| out_idle : ev_bad (ce_revents e) = false -> ev_in (ce_revents e) = false -> outcome c e (Some c) []
| out_read o : ev_bad (ce_revents e) = false -> ev_in (ce_revents e) = true ->
    pdustream_next (cl_stream c) {| sk_wire := []; sk_log := []; sk_oracle := ce_sends e |} (ce_reads e) = Ok o ->
    outcome c e
      (match no_result o with None => None | Some _ => Some {| cl_fd := cl_fd c; cl_stream := no_stream o |} end)
      (match no_result o with Some (Some r) => [r] | _ => [] end).
Inductive outcomes : list client -> list client_event -> list client -> list (Z * request) -> Prop :=
| outs_nil : outcomes [] [] [] []
| outs_cons c cs e es k ks r rs : outcome c e k r -> outcomes cs es ks rs ->
    outcomes (c :: cs) (e :: es) (match k with Some c => c :: ks | None => ks end) (map (pair (cl_fd c)) r ++ rs).
(** The requests that were given to the workers, with their descriptors. *)
Definition requests (acts : list action) : list (Z * request) :=
  flat_map (fun a => match a with Pushed fd r => [(fd, r)] | _ => [] end) acts.
(** The connections that came. *)
Definition newcomers (s : server) (e : poll_event) : list client :=
  flat_map (fun p => if negb (fst p =? -1) && negb (ev_bad (se_revents (snd p))) && ev_in (se_revents (snd p))
                     then match se_accept (snd p) with Accepted fd true => [{| cl_fd := fd; cl_stream := pdustream_create |}] | _ => [] end
                     else []) (combine (sv_servers s) (pe_servers e)).

(** The errors of accept() after which it says (accept(2), Linux) that one should try
    again: those of the network, which belong to the connection and not to the
    listening socket. *)
Definition ENETDOWN := 100.   Definition EPROTO := 71.       Definition ENOPROTOOPT := 92.
Definition EHOSTDOWN := 112.  Definition ENONET := 64.       Definition EHOSTUNREACH := 113.
Definition EOPNOTSUPP := 95.  Definition ENETUNREACH := 101. Definition EWOULDBLOCK := 11.
Definition try_again (errno : Z) : Prop :=
  In errno [EWOULDBLOCK; ENETDOWN; EPROTO; ENOPROTOOPT; EHOSTDOWN; ENONET; EHOSTUNREACH; EOPNOTSUPP; ENETUNREACH].
(** A listening socket that doesn't work. *)
Definition broken (se : server_event) : Prop :=
  ev_bad (se_revents se) = true \/
  (ev_in (se_revents se) = true /\ exists errno, se_accept se = NotAccepted errno /\ ~ try_again errno).
(** Nothing happens to the listening sockets: no poll() is interrupted nor finds an
    error there, and accept() has no error but those after which one may try
    again. *)
Definition uneventful (e : poll_event) : Prop :=
  match pe_polled e with PollStopped => False | PollError errno => errno <> 4 | _ => True end /\
  Forall (fun se => ev_bad (se_revents se) = false /\ (ev_in (se_revents se) = true -> forall errno, se_accept se = NotAccepted errno -> try_again errno)) (pe_servers e).
